(** Vocabulary of C162: what the macros ask for. *)
From Verif Require Import Str Dll_model.

Definition given (e : env) (x : name) : Prop := e x <> None.
(** the module is linked as a DLL: it or all of eProsima is *)
Definition dynamic (e : env) (m : str) : Prop := given e (Own m DYN_LINK) \/ given e (Common ALL_DYN_LINK).
(** and also as a static library *)
Definition contradictory (e : env) (m : str) : Prop := dynamic e m /\ given e (Own m STATIC_LINK).
(** Visual Studio is told to link the library: the file is not one of the library and this has not been switched off *)
Definition automatic (e : env) (m : str) : Prop := given e (Common MSC_VER) /\ ~ given e (Own m SOURCE) /\ ~ given e (Common ALL_NO_LIB) /\ ~ given e (Own m NO_LIB).
(** the file has not included these headers of the module, nor that for the linking of any module *)
Definition not_included (e : env) (m : str) : Prop := ~ given e (Own m DLL_GUARD) /\ ~ given e (Common AUTOLINK_GUARD).
