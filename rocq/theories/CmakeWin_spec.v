(** Specification of C151. *)
From Verif Require Import CmakeWin_model.

(** libraries that a target depends on: linked to it or to one of those *)
Inductive depends (g : targets) : str -> str -> Prop :=
| depends_link t l : In l (links g t) -> depends g t l
| depends_more t l m : In l (links g t) -> depends g l m -> depends g t m.
(** the same through libraries that have files *)
Inductive depends_files (g : targets) : str -> str -> Prop :=
| files_link t l : In l (links g t) -> interface g l = Some false -> depends_files g t l
| files_more t l m : In l (links g t) -> interface g l = Some false -> depends_files g l m -> depends_files g t m.
Definition library (g : targets) (l : str) : Prop := interface g l = Some false.
(** no target depends on itself: targets have levels *)
Definition acyclic (g : targets) : Prop := exists level : str -> nat, forall t l, In l (links g t) -> interface g l = Some false -> level l < level t.
