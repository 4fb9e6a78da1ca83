(** Specification of further documented defaults of C145, cmake_utils/README.md:61-87: the files and directories, relative to the package. *)
From Verif Require Import Str.
Definition documented_paths : list (str * str) :=
  [(s "MODULE_THIRDPARTY_PATH", s "../thirdparty"); (s "MODULE_VERSION_FILE_PATH", s "../VERSION"); (s "MODULE_LICENSE_FILE_PATH", s "../LICENSE")].
