(** What is expected of the variables of type Heritable. *)
From Verif Require Export Heritable_model.

(** the variable [h] has the object [i] *)
Definition refers (w : world) (h i : nat) : Prop := exists v, nth_error (variables w) h = Some (Some v) /\ target v = Some i.
(** the object a variable has: None if there is no such variable, Some None after a move *)
Definition pointee (w : world) (h : nat) : option (option nat) :=
  match nth_error (variables w) h with Some (Some v) => Some (target v) | _ => None end.
(** two variables have the same object *)
Definition together (w : world) (h g : nat) : Prop := exists i, refers w h i /\ refers w g i.
(** an object exists that has not been deleted *)
Definition lives (w : world) (i : nat) : Prop := i < List.length (objects w) /\ ~ In i (deleted w).
(** what is read through a variable *)
Definition reads (virtual : class -> bool) (moves : bool) (w : world) (h : nat) (z : Z) : Prop := exec virtual moves w (Get h) = Done w (Value z).
(** nothing is deleted or modified *)
Definition contents (w : world) : list Z := map content (objects w).

Section Careful.
Variable virtual : class -> bool.
Definition static_of (w : world) (h : nat) : option class := match nth_error (variables w) h with Some (Some v) => Some (static v) | _ => None end.
(** [g] is converted to the type [t] or a base of its own *)
Definition upcast (w : world) (g : nat) (t : class) : Prop := forall c, static_of w g = Some c -> derives c t = true.
Definition has_object (w : world) (h : nat) : Prop := exists i, pointee w h = Some (Some i).
(** what a careful program does in [w]: conversions to base classes only, no base class without virtual destructor as the
    type of a variable made from a derived class, no access to an object through a variable that was
    moved from *)
Definition careful (w : world) (o : op) : Prop :=
  match o with
  | Make t u _ => derives u t = true /\ (u = t \/ virtual t = true)
  | Copy t g | Move t g => upcast w g t
  | Assign h g | MoveAssign h g => forall c, static_of w h = Some c -> upcast w g c
  | Destroy _ => True
  | Get h | Set_ h _ | EqualTo h _ | LessTo h _ | CanCast _ h | DynCast _ h => has_object w h
  | Equal h g | Less h g => has_object w h /\ has_object w g /\ forall c, static_of w h = Some c -> upcast w g c
  end.
Variable moves : bool.
(** states reached by careful programs *)
Inductive carefully : world -> Prop :=
| c_empty : carefully empty
| c_exec w o w' a : carefully w -> careful w o -> exec virtual moves w o = Done w' a -> carefully w'.
End Careful.

(** states reached by programs *)
Inductive reached (virtual : class -> bool) (moves : bool) : world -> Prop :=
| re_empty : reached virtual moves empty
| re_exec w o w' a : reached virtual moves w -> exec virtual moves w o = Done w' a -> reached virtual moves w'.
