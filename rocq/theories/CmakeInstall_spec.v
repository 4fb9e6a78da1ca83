(** Specification of C150: the documented directories, installation_paths.cmake:21-26 and cmake_utils/README.md:89-93. *)
From Verif Require Export Str.

Definition documented_directories : list (str * str) :=
  [(s "MODULE_BIN_INSTALL_DIR", s "bin/"); (s "MODULE_INCLUDE_INSTALL_DIR", s "include/"); (s "MODULE_LIB_INSTALL_DIR", s "lib/"); (s "MODULE_DATA_INSTALL_DIR", s "share/")].
Definition license_directory : str := s "MODULE_LICENSE_INSTALL_DIR".
(** each directory has a common name *)
Definition common_names : list (str * str) :=
  [(s "MODULE_BIN_INSTALL_DIR", s "BIN_INSTALL_DIR"); (s "MODULE_INCLUDE_INSTALL_DIR", s "INCLUDE_INSTALL_DIR"); (s "MODULE_LIB_INSTALL_DIR", s "LIB_INSTALL_DIR");
   (s "MODULE_DATA_INSTALL_DIR", s "DATA_INSTALL_DIR"); (s "MODULE_LICENSE_INSTALL_DIR", s "LICENSE_INSTALL_DIR")].
