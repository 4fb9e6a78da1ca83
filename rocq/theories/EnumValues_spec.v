(** Vocabulary of C128. *)
From Coq Require Import List ZArith Ascii.
From Verif Require Import EnumValues_model.
Import ListNotations.

(** what compiles: different names, without spaces *)
Definition compiles (es : list enumerator) : Prop := NoDup (map name es) /\ forall e, In e es -> ~ In " "%char (name e).

(** the enumerator at place [i] is [e], and its value is [v] *)
Definition declared (es : list enumerator) (i : nat) (e : enumerator) (v : Z) : Prop :=
  nth_error es i = Some e /\ nth_error (values_of es) i = Some v.

(** no argument has an explicit value *)
Definition plain (es : list enumerator) : Prop := forall e, In e es -> given e = None.
