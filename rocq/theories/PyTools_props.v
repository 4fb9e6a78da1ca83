(** Properties C120 and C121. *)
From Verif Require Import PyTools_spec PyTools_proofs.
Local Open Scope Q_scope.

(** ** C120 Timer of Python *)
Theorem C120_elapsed_partial : forall born resets now, this_century (last_start born resets) -> this_century now -> (last_start born resets <= now)%Z ->
  let e := timer_elapsed now (timer_run born resets) in
  0 <= e /\ Qabs (e - (inject_Z now - inject_Z (last_start born resets)) / 1000000000) <= 3 # 1000000.
Proof. exact elapsed_lemma. Qed.
Print Assumptions C120_elapsed_partial.
Theorem C120_increases_partial : forall born resets now now', this_century (last_start born resets) -> this_century now -> this_century now' -> (last_start born resets <= now <= now')%Z ->
  timer_elapsed now (timer_run born resets) <= timer_elapsed now' (timer_run born resets).
Proof. exact later_lemma. Qed.
Print Assumptions C120_increases_partial.
(** the 14th of November 2023, a tenth of a second after the second reset *)
Example C120_nonvacuous : timer_elapsed 1700000000200000000 (timer_run 1600000000123456789 [1700000000000000000; 1700000000100000000]%Z) == (419431 # 4194304) /\
  last_start 1600000000123456789 [1700000000000000000; 1700000000100000000]%Z = 1700000000100000000%Z /\ this_century 1700000000200000000 /\ this_century 1700000000100000000.
Proof. split; [vm_compute; reflexivity|]. split; [reflexivity|]. split; split; vm_compute; congruence. Qed.

(** time.time() is the system clock: when it is set back by one second, the elapsed time is negative *)
Theorem C120_backwards_refuted : timer_elapsed 1699999999000000000 (timer_run 1700000000000000000 []) == - (1).
Proof. vm_compute. reflexivity. Qed.
Print Assumptions C120_backwards_refuted.
(** times of a hundred nanoseconds are not seen *)
Theorem C120_resolution_refuted : timer_elapsed 1700000000000000100 (timer_run 1700000000000000000 []) == 0.
Proof. vm_compute. reflexivity. Qed.
Print Assumptions C120_resolution_refuted.

(** ** C121 A decorated function is the function *)
Theorem C121_transparent_partial : forall (value exn state : Type) (repr : value -> str + exn) (f : named value exn state) args kwargs w r w' ms,
  (forall v, In v args -> exists t, repr v = inl t) -> (forall k v, In (k, v) kwargs -> exists t, repr v = inl t) ->
  snd f args kwargs w = (r, w', ms) ->
  exists a k ms', snd (decorated value exn state repr f) args kwargs w = (r, w', called_text (fst f) a k :: ms ++ ms') /\
    tuple_text value exn repr args = inl a /\ dict_text value exn repr kwargs = inl k /\
    ms' = match r with Returned _ => [finished_text (fst f)] | Raised _ => [] end.
Proof. exact transparent_lemma. Qed.
Print Assumptions C121_transparent_partial.

(** C121. The messages: the name of the function and its arguments as Python writes a tuple and a dictionary. *)
Theorem C121_message_partial : forall (value exn state : Type) (repr : value -> str + exn) (f : named value exn state) args kwargs w r w' ms,
  (forall v, In v args -> exists t, repr v = inl t) -> (forall k v, In (k, v) kwargs -> exists t, repr v = inl t) ->
  snd f args kwargs w = (r, w', ms) ->
  exists ts us a k, Forall2 (fun v t => repr v = inl t) args ts /\ Forall2 (fun kv u => repr (snd kv) = inl u) kwargs us /\ tuple_reads ts a /\ dict_reads (combine (map fst kwargs) us) k /\
    snd (decorated value exn state repr f) args kwargs w = (r, w', (s "Function <" ++ fst f ++ s "> called with arguments: <" ++ a ++ s ">, <" ++ k ++ s ">") :: ms ++ match r with Returned _ => [s "Function <" ++ fst f ++ s "> finished"] | Raised _ => [] end).
Proof. exact message_lemma. Qed.
Print Assumptions C121_message_partial.

Theorem C121_nested : forall (value exn state : Type) (repr : value -> str + exn) (f : named value exn state) args kwargs w v w' ms,
  well_nested (snd (snd f args kwargs w)) -> snd (decorated value exn state repr f) args kwargs w = (Returned v, w', ms) -> well_nested ms.
Proof. exact nested_lemma. Qed.
Print Assumptions C121_nested.

(** values are texts, except one whose repr raises; a function that counts its calls and returns its first argument, and one that calls it twice and then raises *)
Definition show (v : option str) : str + unit := match v with Some t => inl t | None => inr tt end.
Definition first : named (option str) unit nat :=
  (s "first", fun args _ w => (match args with v :: _ => Returned v | [] => Raised tt end, S w, [])).
Definition twice : named (option str) unit nat :=
  (s "twice", fun args kwargs w =>
    let call := snd (decorated _ _ _ show first) in
    match call args kwargs w with (_, w1, m1) => match call args kwargs w1 with (_, w2, m2) => (Raised tt, w2, m1 ++ m2) end end).

Example C121_nonvacuous : snd (decorated _ _ _ show first) [Some (s "1"); Some (s "[2]")] [(s "k", Some (s "3"))] 4%nat =
  (Returned (Some (s "1")), 5%nat, [s "Function <first> called with arguments: <(1, [2])>, <{'k': 3}>"; s "Function <first> finished"]).
Proof. vm_compute. reflexivity. Qed.
(** two functions inside each other, the outer one left by an exception *)
Example C121_raised_nonvacuous : snd (decorated _ _ _ show twice) [Some (s "1")] [] 0%nat =
  (Raised tt, 2%nat, [s "Function <twice> called with arguments: <(1,)>, <{}>"; s "Function <first> called with arguments: <(1,)>, <{}>"; s "Function <first> finished";
                      s "Function <first> called with arguments: <(1,)>, <{}>"; s "Function <first> finished"]).
Proof. vm_compute. reflexivity. Qed.

(** an argument that cannot be shown: the function would return, the decorated one raises without having called it *)
Theorem C121_repr_refuted : snd first [None] [] 4%nat = (Returned None, 5%nat, []) /\ snd (decorated _ _ _ show first) [None] [] 4%nat = (Raised tt, 4%nat, []).
Proof. split; vm_compute; reflexivity. Qed.
Print Assumptions C121_repr_refuted.
(** the name of a decorated function is lost: decorated again, its messages name another function *)
Theorem C121_name_refuted : snd (snd (decorated _ _ _ show (decorated _ _ _ show first)) [Some (s "1")] [] 4%nat) =
  [s "Function <wrapper> called with arguments: <(1,)>, <{}>"; s "Function <first> called with arguments: <(1,)>, <{}>"; s "Function <first> finished"; s "Function <wrapper> finished"].
Proof. vm_compute. reflexivity. Qed.
Print Assumptions C121_name_refuted.
