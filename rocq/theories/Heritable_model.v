(** Model of Heritable, cpp_utils/include/cpp_utils/memory/impl/Heritable.ipp:26-193: variables of the types
    Heritable<T> that share objects.

    - A class is the path from the root of its inheritance tree, so that [b] is [c] or a base of [c] when
      it is a prefix of it; single, non-virtual inheritance.  Classes with different first numbers
      are unrelated.
    - What operator== and operator< of the class see of an object, its content, is an integer.
    - std::shared_ptr is modelled with its count of owners: the last one deletes the object with
      delete of a pointer to the class [deleter], the one of the pointer it was constructed with.
    - The second operand of == and < is converted to the type of the first one if they differ (before C++20).
    - Programs that do not compile are [Invalid], undefined behaviour is [Undefined].
    - One thread. *)
From Coq Require Export List Bool ZArith Arith.
From Verif Require Export Threads.
Export ListNotations.

Definition class := list nat.
(** [c] is [b] or derives from it *)
Fixpoint derives (c b : class) : bool :=
  match b, c with
  | [], _ => true
  | x :: b', y :: c' => Nat.eqb x y && derives c' b'
  | _ :: _, [] => false
  end.
Definition same (a b : class) : bool := derives a b && derives b a.

Record object := { dynamic : class; content : Z; owners : nat; deleter : class }.
(** a variable of type Heritable<static>; [target] is what data_ptr_ points to, None for null *)
Record variable := { static : class; target : option nat }.
Record world := {
  objects : list object;
  variables : list (option variable);   (* None: after its destructor *)
  deleted : list nat }.                 (* objects, newest first *)

Inductive result {A : Type} :=
| Done (w : world) (a : A)
| Undefined
| Invalid.
Arguments result : clear implicits.

Definition set_objects (w : world) (os : list object) := {| objects := os; variables := variables w; deleted := deleted w |}.
Definition set_variables (w : world) (vs : list (option variable)) := {| objects := objects w; variables := vs; deleted := deleted w |}.
Definition add_deleted (w : world) (i : nat) := {| objects := objects w; variables := variables w; deleted := i :: deleted w |}.
Definition with_owners (o : object) (n : nat) := {| dynamic := dynamic o; content := content o; owners := n; deleter := deleter o |}.
Definition with_content (o : object) (z : Z) := {| dynamic := dynamic o; content := z; owners := owners o; deleter := deleter o |}.

Section Program.
(** whether the destructor of a class is virtual *)
Variable virtual : class -> bool.
(** whether std::static_pointer_cast moves from an rvalue, as it does since C++20 *)
Variable cast_moves : bool.

(** a shared_ptr to [i] is copied *)
Definition acquire (w : world) (i : option nat) : world :=
  match i with
  | None => w
  | Some k => match nth_error (objects w) k with
              | Some o => set_objects w (upd (objects w) k (with_owners o (S (owners o))))
              | None => w
              end
  end.
(** a shared_ptr to [i] is destroyed or loses its object; None is undefined behaviour: delete through a
    base without virtual destructor *)
Definition release (w : world) (i : option nat) : option world :=
  match i with
  | None => Some w
  | Some k => match nth_error (objects w) k with
              | Some o =>
                  let w' := set_objects w (upd (objects w) k (with_owners o (pred (owners o)))) in
                  match owners o with
                  | 1 => if same (dynamic o) (deleter o) || virtual (deleter o) then Some (add_deleted w' k) else None
                  | _ => Some w'
                  end
              | None => None
              end
  end.

(** static_cast between pointers to the classes *)
Definition compiles (from to : class) : bool := derives from to || derives to from.
(** ... of a pointer to an object: undefined if the object is not of the class *)
Definition cast_ok (w : world) (i : option nat) (to : class) : bool :=
  match i with
  | None => true
  | Some k => match nth_error (objects w) k with Some o => derives (dynamic o) to | None => false end
  end.

Definition var (w : world) (h : nat) : option variable :=
  match nth_error (variables w) h with Some (Some v) => Some v | _ => None end.
Definition put (w : world) (h : nat) (i : option nat) : world :=
  match var w h with
  | Some v => set_variables w (upd (variables w) h (Some {| static := static v; target := i |}))
  | None => w
  end.
Definition declare (w : world) (t : class) (i : option nat) : world :=
  set_variables w (variables w ++ [Some {| static := t; target := i |}]).

Inductive op :=
| Make (t u : class) (z : Z)     (* Heritable<t> x(new u(z)); :31-45; make_heritable, :187-193 *)
| Copy (t : class) (g : nat)     (* Heritable<t> x(g); :46-51, :61-66 *)
| Move (t : class) (g : nat)     (* Heritable<t> x(std::move(g)); :53-58, :68-74 *)
| Assign (h g : nat)             (* h = g; :76-82 *)
| MoveAssign (h g : nat)         (* h = std::move(g); :84-90 *)
| Destroy (h : nat)              (* :92-96 *)
| Get (h : nat)                  (* *h, h.get_reference(), h->...; :102-112, :150-154 *)
| Set_ (h : nat) (z : Z)         (* the same, to modify the object *)
| Equal (h g : nat)              (* h == g; :118-123 *)
| EqualTo (h : nat) (z : Z)      (* h == object; :125-130 *)
| Less (h g : nat)               (* h < g; :132-137 *)
| LessTo (h : nat) (z : Z)       (* h < object; :139-144 *)
| CanCast (u : class) (h : nat)  (* h.can_cast<u>(); :160-173 *)
| DynCast (u : class) (h : nat). (* h.dyn_cast<u>(), to read; :175-181 *)

Inductive answer := Nothing | Value (z : Z) | Answer (b : bool) | BadCast.

(** dereference of data_ptr_ *)
Definition deref (w : world) (v : variable) : option object :=
  match target v with Some k => nth_error (objects w) k | None => None end.
Definition look (w : world) (h : nat) (f : object -> answer) : result answer :=
  match var w h with
  | None => Invalid
  | Some v => match deref w v with Some o => Done w (f o) | None => Undefined end
  end.
Definition look2 (w : world) (h g : nat) (f : Z -> Z -> bool) : result answer :=
  match var w h, var w g with
  | Some v, Some x =>
      if compiles (static x) (static v)
      then if cast_ok w (target x) (static v)
           then match deref w v, deref w x with Some o, Some p => Done w (Answer (f (content o) (content p))) | _, _ => Undefined end
           else Undefined
      else Invalid
  | _, _ => Invalid
  end.

(** h takes the object of a temporary that owns [i] *)
Definition replace (w : world) (h : nat) (v : variable) (i : option nat) : result answer :=
  match release (put w h i) (target v) with Some w' => Done w' Nothing | None => Undefined end.

Definition exec (w : world) (o : op) : result answer :=
  match o with
  | Make t u z =>
      if compiles u t
      then if derives u t
           then Done (declare (set_objects w (objects w ++ [{| dynamic := u; content := z; owners := 1; deleter := t |}])) t (Some (List.length (objects w)))) Nothing
           else Undefined
      else Invalid
  | Copy t g =>
      match var w g with
      | Some x => if compiles (static x) t
                  then if cast_ok w (target x) t then Done (declare (acquire w (target x)) t (target x)) Nothing else Undefined
                  else Invalid
      | None => Invalid
      end
  | Move t g =>
      match var w g with
      | Some x => if compiles (static x) t
                  then if cast_ok w (target x) t
                       then if same (static x) t || cast_moves
                            then Done (declare (put w g None) t (target x)) Nothing
                            else Done (declare (acquire w (target x)) t (target x)) Nothing
                       else Undefined
                  else Invalid
      | None => Invalid
      end
  | Assign h g =>
      match var w h, var w g with
      | Some v, Some x => if compiles (static x) (static v)
                          then if cast_ok w (target x) (static v) then replace (acquire w (target x)) h v (target x) else Undefined
                          else Invalid
      | _, _ => Invalid
      end
  | MoveAssign h g =>
      match var w h, var w g with
      | Some v, Some x => if compiles (static x) (static v)
                          then if cast_ok w (target x) (static v)
                               then if Nat.eqb h g then Done w Nothing
                                    else if same (static x) (static v) || cast_moves
                                    then replace (put w g None) h v (target x)
                                    else replace (acquire w (target x)) h v (target x)
                               else Undefined
                          else Invalid
      | _, _ => Invalid
      end
  | Destroy h =>
      match var w h with
      | Some v => match release (set_variables w (upd (variables w) h None)) (target v) with Some w' => Done w' Nothing | None => Undefined end
      | None => Invalid
      end
  | Get h => look w h (fun o => Value (content o))
  | Set_ h z =>
      match var w h with
      | Some v => match target v with
                  | Some k => match nth_error (objects w) k with
                              | Some o => Done (set_objects w (upd (objects w) k (with_content o z))) Nothing
                              | None => Undefined
                              end
                  | None => Undefined
                  end
      | None => Invalid
      end
  | Equal h g => look2 w h g Z.eqb
  | EqualTo h z => look w h (fun o => Answer (Z.eqb (content o) z))
  | Less h g => look2 w h g Z.ltb
  | LessTo h z => look w h (fun o => Answer (Z.ltb (content o) z))
  | CanCast u h => look w h (fun o => Answer (derives (dynamic o) u))
  | DynCast u h => look w h (fun o => if derives (dynamic o) u then Value (content o) else BadCast)
  end.

Definition empty : world := {| objects := []; variables := []; deleted := [] |}.
Fixpoint program (w : world) (ops : list op) : result (list answer) :=
  match ops with
  | [] => Done w []
  | o :: ops' => match exec w o with
                 | Done w' a => match program w' ops' with Done w'' l => Done w'' (a :: l) | Undefined => Undefined | Invalid => Invalid end
                 | Undefined => Undefined
                 | Invalid => Invalid
                 end
  end.
End Program.
