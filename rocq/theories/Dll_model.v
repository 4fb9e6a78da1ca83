(** Model of the headers of a library that say how it is linked, templates/cpp/library of cmake_utils: config.h.in:15-34, library_dll.h.in:15-76 and eProsima_auto_link.h.in:15-71,
    as programs of a small preprocessor, and of what compile_library.cmake:93-160 defines for the compiler and how it names the library.

    Simplifications.  Macros are a type of names and not of texts: the macro of a module is neither EPROSIMA nor EPROSIMA_ALL (with these EPROSIMA_DYN_LINK and EPROSIMA_ALL_DYN_LINK would be
    macros of the module), is an identifier, and names of modules are not macros themselves.  A string literal is its characters.  The macros of the version are those of project(), which are
    those of the module if project() is called with MODULE_VERSION, as cpp_utils/CMakeLists.txt:39-46 does, and the numbers have no leading zeros. *)
From Verif Require Export Str.

(** the macros of a module *)
Inductive own := DYN_LINK | STATIC_LINK | NO_LIB | SOURCE | DllAPI | USER_DLL_EXPORT | USERDllExport | VERSION_MAJOR | VERSION_MINOR | VERSION_MICRO | VERSION_STRING | COMMIT_HASH | CONFIG_GUARD | DLL_GUARD | LIB_NAME.
(** the others *)
Inductive common := WIN32 | MSC_VER | DEBUG | DLL | RTLDLL | ALL_DYN_LINK | ALL_STATIC_LINK | ALL_NO_LIB | EPROSIMA_DYN_LINK | LIB_PREFIX | LIB_DEBUG_TAG | AUTOLINK_GUARD | EPROSIMA_USER_DLL_EXPORT.
Inductive name := Own (m : str) (x : own) | Common (x : common).
Definition own_eqb (x y : own) : bool := match x, y with
  | DYN_LINK, DYN_LINK | STATIC_LINK, STATIC_LINK | NO_LIB, NO_LIB | SOURCE, SOURCE | DllAPI, DllAPI | USER_DLL_EXPORT, USER_DLL_EXPORT | USERDllExport, USERDllExport | VERSION_MAJOR, VERSION_MAJOR
  | VERSION_MINOR, VERSION_MINOR | VERSION_MICRO, VERSION_MICRO | VERSION_STRING, VERSION_STRING | COMMIT_HASH, COMMIT_HASH | CONFIG_GUARD, CONFIG_GUARD | DLL_GUARD, DLL_GUARD | LIB_NAME, LIB_NAME => true | _, _ => false end.
Definition common_eqb (x y : common) : bool := match x, y with
  | WIN32, WIN32 | MSC_VER, MSC_VER | DEBUG, DEBUG | DLL, DLL | RTLDLL, RTLDLL | ALL_DYN_LINK, ALL_DYN_LINK | ALL_STATIC_LINK, ALL_STATIC_LINK | ALL_NO_LIB, ALL_NO_LIB
  | EPROSIMA_DYN_LINK, EPROSIMA_DYN_LINK | LIB_PREFIX, LIB_PREFIX | LIB_DEBUG_TAG, LIB_DEBUG_TAG | AUTOLINK_GUARD, AUTOLINK_GUARD | EPROSIMA_USER_DLL_EXPORT, EPROSIMA_USER_DLL_EXPORT => true | _, _ => false end.
Definition name_eqb (a b : name) : bool := match a, b with Own m x, Own n y => own_eqb x y && str_eqb m n | Common x, Common y => common_eqb x y | _, _ => false end.

(** the preprocessor: conditions, and directives with their order and their branches *)
Inductive cond := Defined (x : name) | Not (c : cond) | And (c d : cond) | Or (c d : cond).
Inductive code := Skip | Define (x : name) (body : str) | Undef (x : name) | Error | Link (l : list (name + str)) | Seq (a b : code) | If (c : cond) (yes no : code).
(** the macros with their bodies, and the libraries that #pragma comment(lib, ...) asked for, the oldest first *)
Definition env := name -> option str.
Definition state := (env * list str)%type.
Definition update (e : env) (x : name) (b : option str) : env := fun y => if name_eqb x y then b else e y.
Definition is_some (o : option str) : bool := match o with Some _ => true | None => false end.
Fixpoint holds (c : cond) (e : env) : bool := match c with Defined x => is_some (e x) | Not c => negb (holds c e) | And c d => holds c e && holds d e | Or c d => holds c e || holds d e end.
Definition text (e : env) (p : name + str) : str := match p with inl x => match e x with Some b => b | None => [] end | inr t => t end.
(** None: #error *)
Fixpoint run (p : code) (st : state) : option state := match p with
  | Skip => Some st
  | Define x b => Some (update (fst st) x (Some b), snd st)
  | Undef x => Some (update (fst st) x None, snd st)
  | Error => None
  | Link l => Some (fst st, snd st ++ [concat (map (text (fst st)) l)])
  | Seq a b => match run a st with Some st' => run b st' | None => None end
  | If c a b => if holds c (fst st) then run a st else run b st
  end.

Record module := { macro : str; module_name : str; major : str; minor : str; patch : str; version_string : str; commit : str }.
Section Headers.
Variable p : module.
Local Notation mine x := (Own (macro p) x).
Definition once (x : name) (body : code) : code := If (Defined x) Skip (Seq (Define x []) body).
Definition default (x : name) (b : str) : code := If (Defined x) Skip (Define x b).
(** config.h.in:15-34 *)
Definition quoted (t : str) : str := """"%char :: t ++ [""""%char].
Definition config_h : code := once (mine CONFIG_GUARD) (Seq (default (mine VERSION_MAJOR) (major p)) (Seq (default (mine VERSION_MINOR) (minor p)) (Seq (default (mine VERSION_MICRO) (patch p))
  (Seq (default (mine VERSION_STRING) (quoted (version_string p))) (default (mine COMMIT_HASH) (quoted (commit p))))))).
(** library_dll.h.in:21-36 *)
Definition normalize : code :=
  Seq (If (And (And (And (Not (Defined (mine DYN_LINK))) (Not (Defined (mine STATIC_LINK)))) (Not (Defined (Common ALL_DYN_LINK)))) (Not (Defined (Common ALL_STATIC_LINK)))) (Define (mine STATIC_LINK) []) Skip)
  (Seq (If (And (Defined (Common ALL_DYN_LINK)) (Not (Defined (mine DYN_LINK)))) (Define (mine DYN_LINK) []) Skip)
  (Seq (If (And (Defined (mine DYN_LINK)) (Defined (mine STATIC_LINK))) Error Skip)
       (If (And (Defined (Common ALL_NO_LIB)) (Not (Defined (mine NO_LIB)))) (Define (mine NO_LIB) []) Skip))).
(** :40-52 *)
Definition api : code :=
  If (Defined (Common WIN32))
    (If (Or (Defined (Common ALL_DYN_LINK)) (Defined (mine DYN_LINK)))
      (If (Defined (mine SOURCE)) (Define (mine DllAPI) (s "__declspec( dllexport )")) (Define (mine DllAPI) (s "__declspec( dllimport )")))
      (Define (mine DllAPI) []))
    (Define (mine DllAPI) []).
(** :55-59 *)
Definition user_api : code := If (And (Defined (Common WIN32)) (Defined (mine USER_DLL_EXPORT))) (Define (mine USERDllExport) (s "__declspec(dllexport)")) (Define (mine USERDllExport) []).
(** eProsima_auto_link.h.in:29-33 *)
Definition debug_tag : code := If (Defined (Common DEBUG)) (Define (Common LIB_DEBUG_TAG) (s "d")) (Define (Common LIB_DEBUG_TAG) []).
(** :36-42 *)
Definition prefix : code :=
  If (And (Or (Defined (Common DLL)) (Defined (Common RTLDLL))) (Defined (Common EPROSIMA_DYN_LINK))) (Define (Common LIB_PREFIX) []) (If (Defined (Common EPROSIMA_DYN_LINK)) Error (Define (Common LIB_PREFIX) (s "lib"))).
(** :45-54 *)
Definition comment_lib : code :=
  If (And (And (And (And (Defined (mine LIB_NAME)) (Defined (Common LIB_PREFIX))) (Defined (Common LIB_DEBUG_TAG))) (Defined (mine VERSION_MAJOR))) (Defined (mine VERSION_MINOR)))
    (Link [inl (Common LIB_PREFIX); inl (mine LIB_NAME); inl (Common LIB_DEBUG_TAG); inr (s "-"); inl (mine VERSION_MAJOR); inr (s "."); inl (mine VERSION_MINOR); inr (s ".lib")]) Error.
(** :59-69; #undef of a macro that is not defined does nothing *)
Definition undef_all : code := Seq (Undef (Common LIB_PREFIX)) (Seq (Undef (mine LIB_NAME)) (Undef (Common LIB_DEBUG_TAG))).
(** eProsima_auto_link.h.in:22-71; the guard is the same for all modules *)
Definition auto_link_h : code := once (Common AUTOLINK_GUARD) (Seq (If (Defined (Common MSC_VER)) (Seq debug_tag (Seq prefix comment_lib)) Skip) undef_all).
(** library_dll.h.in:63-75 *)
Definition auto_linking : code :=
  If (And (And (Not (Defined (mine SOURCE))) (Not (Defined (Common ALL_NO_LIB)))) (Not (Defined (mine NO_LIB))))
    (Seq (Define (mine LIB_NAME) (module_name p)) (Seq (If (Or (Defined (Common ALL_DYN_LINK)) (Defined (mine DYN_LINK))) (Define (Common EPROSIMA_DYN_LINK) []) Skip) auto_link_h)) Skip.
(** library_dll.h.in *)
Definition library_dll_h : code := once (mine DLL_GUARD) (Seq config_h (Seq normalize (Seq api (Seq user_api auto_linking)))).
End Headers.

(** the compiler and the build *)
Inductive compiler := Msvc | Mingw | Unix.
Inductive build_type := Release | Debug | MinSizeRel | RelWithDebInfo.
(** what the compiler defines: _WIN32, _MSC_VER; _DEBUG with a runtime for debugging, which is that of Debug, and _DLL with a runtime that is a DLL, which is the default of CMake *)
Definition compiler_defines (c : compiler) (t : build_type) (x : common) : bool := match c, x with
  | Msvc, (WIN32 | MSC_VER | DLL) => true | Msvc, DEBUG => match t with Debug => true | _ => false end | Mingw, WIN32 => true | _, _ => false end.
(** compile_library.cmake:99-120 and :148-152; [inside]: the file is one of the library, and else one of a target that links to it *)
Definition cmake_defines (c : compiler) (shared inside : bool) (x : name) (m : str) : bool := match x with
  | Own n SOURCE => inside && str_eqb n m
  | Own n DYN_LINK => match c with Msvc => shared && str_eqb n m | _ => false end
  | Common EPROSIMA_USER_DLL_EXPORT => match c with Msvc => inside | _ => false end
  | _ => false end.
Definition start (c : compiler) (t : build_type) (shared inside : bool) (m : str) : env := fun x =>
  if cmake_defines c shared inside x m || match x with Common y => compiler_defines c t y | Own _ _ => false end then Some [] else None.
(** the file a program is linked with, compile_library.cmake:142-145 and :161: the name of the target or of OUTPUT_NAME, the postfix of the build type, and the extension of libraries of Visual Studio *)
Definition postfix (p : module) (t : build_type) : str := match t with
  | Release => s "-" ++ major p ++ s "." ++ minor p
  | MinSizeRel => s "m-" ++ major p ++ s "." ++ minor p ++ s "." ++ patch p
  | RelWithDebInfo => s "rd-" ++ major p ++ s "." ++ minor p
  | Debug => s "d-" ++ major p ++ s "." ++ minor p end.
Definition library_file (p : module) (shared : bool) (t : build_type) : str := (if shared then [] else s "lib") ++ module_name p ++ postfix p t ++ s ".lib".
