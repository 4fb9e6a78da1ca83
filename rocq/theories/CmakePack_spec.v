(** Specification of C160: what CPack and install are told. *)
From Verif Require Import Str CmakeOpt_model.

(** the variables of CPack for what a package is, and the variables they are to have the value of *)
Definition stated : list (str * str) :=
  [(s "CPACK_PACKAGE_NAME", s "PROJECT_NAME"); (s "CPACK_PACKAGE_VERSION", s "MODULE_VERSION"); (s "CPACK_PACKAGE_VERSION_MAJOR", s "MODULE_VERSION_MAJOR");
   (s "CPACK_PACKAGE_VERSION_MINOR", s "MODULE_VERSION_MINOR"); (s "CPACK_PACKAGE_VERSION_PATCH", s "MODULE_VERSION_PATCH")].
(** calls of install that install one file, or the contents of a directory *)
Definition install_file (file directory comp : str) : list str := [s "FILES"; file; s "DESTINATION"; directory; s "COMPONENT"; comp].
Definition install_directory (from to : str) : list str := [s "DIRECTORY"; from; s "DESTINATION"; to].
(** names of variables of CPack *)
Definition of_cpack (x : str) : Prop := exists r, x = s "CPACK_" ++ r.
