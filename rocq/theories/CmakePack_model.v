(** Model of eprosima_packaging, cmake_utils/cmake/packaging/eProsima_packaging.cmake:20-57, and of install_resources.cmake:20-40.

    The variables are those of CmakeOpt_model.v and lists those of Cmake_model.v.  A call of install is the list of its arguments; what CMake does with them is left out,
    and so is include(CPack), :53, which gives values only to variables that have none.  [msvc]: MSVC or MSVC_IDE. *)
From Verif Require Export Str.
From Verif Require Import Cmake_model CmakeOpt_model CmakeSet_model.

(** eProsima_packaging.cmake:22-27 *)
Definition install_license (v : vars) : list str :=
  s "FILES" :: arguments (expand v (s "MODULE_LICENSE_FILE_PATH")) ++ s "DESTINATION" :: arguments (expand v (s "MODULE_LICENSE_INSTALL_DIR")) ++ [s "COMPONENT"; s "licenses"].
(** set(CPACK_COMPONENTS_ALL ${CPACK_COMPONENTS_ALL} t), :33 and :51 *)
Definition component (t : str) (v : vars) : vars := set_text v (s "CPACK_COMPONENTS_ALL") (join (arguments (expand v (s "CPACK_COMPONENTS_ALL")) ++ arguments t)).
(** :28-34 *)
Definition components (msvc : bool) (v : vars) : vars :=
  let v := set_text v (s "CPACK_COMPONENT_LICENSES_HIDDEN") (s "1") in
  let v := set_text v (s "CPACK_COMPONENTS_ALL") (s "headers") in
  if msvc then component (s "libraries_" ++ expand v (s "MSVC_ARCH")) v else v.
(** :38 *)
Definition summary (v : vars) : vars :=
  set_text v (s "CPACK_PACKAGE_DESCRIPTION_SUMMARY") (expand v (s "CPACK_PACKAGE_NAME") ++ s " - " ++ expand v (expand v (s "PROJECT_NAME") ++ s "_DESCRIPTION_SUMMARY")).
(** :40 *)
Definition description (v : vars) : vars := set_text v (s "CPACK_PACKAGE_DESCRIPTION") (expand v (expand v (s "PROJECT_NAME") ++ s "_DESCRIPTION")).
(** :45-48 *)
Definition versions (v : vars) : vars :=
  let v := set_from v (s "CPACK_PACKAGE_VERSION_MAJOR") (s "MODULE_VERSION_MAJOR") in
  let v := set_from v (s "CPACK_PACKAGE_VERSION_MINOR") (s "MODULE_VERSION_MINOR") in
  let v := set_from v (s "CPACK_PACKAGE_VERSION_PATCH") (s "MODULE_VERSION_PATCH") in
  set_from v (s "CPACK_PACKAGE_VERSION") (s "MODULE_VERSION").
(** :28-51 *)
Definition cpack (msvc : bool) (v : vars) : vars :=
  let v := components msvc v in
  let v := set_from v (s "CPACK_PACKAGE_NAME") (s "PROJECT_NAME") in   (* :36 *)
  let v := summary v in
  let v := description v in
  let v := set_text v (s "CPACK_PACKAGE_VENDOR") (s "eProsima") in   (* :42 *)
  let v := set_text v (s "CPACK_PACKAGE_CONTACT") (s "eProsima Support <support@eprosima.com>") in   (* :43 *)
  let v := versions v in
  let v := set_text v (s "CPACK_COMPONENT_CMAKE_HIDDEN") (s "1") in   (* :50 *)
  component (s "cmake") v.
(** install_resources, install_resources.cmake:20-30 *)
Definition install_resources (v : vars) (path destination : str) : list str :=
  s "DIRECTORY" :: arguments (expand v (s "PROJECT_SOURCE_DIR") ++ s "/" ++ path ++ s "/") ++ s "DESTINATION" :: arguments (expand v (s "DATA_INSTALL_DIR") ++ s "/" ++ destination ++ s "/").
(** eprosima_install_resources, :33-40: the path is an argument that is not quoted; None: CMake stops because there are too few arguments *)
Definition resources (v : vars) : option (list (list str)) :=
  if defined v (s "MODULE_RESOURCES_PATH") then
    match arguments (expand v (s "MODULE_RESOURCES_PATH")) ++ [s "resources"] with
    | path :: destination :: _ => Some [install_resources v path destination]
    | _ => None
    end
  else Some [].
(** eprosima_packaging, :20-57: the variables afterwards and the calls of install *)
Definition packaging (msvc : bool) (v : vars) : option (vars * list (list str)) :=
  option_map (fun r => (cpack msvc v, install_license v :: r)) (resources (cpack msvc v)).
