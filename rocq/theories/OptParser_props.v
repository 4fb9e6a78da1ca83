(** C111 to C116: the parser of command lines. *)
From Coq Require Import Lia.
From Verif Require Import OptParser_spec OptUse_proofs OptStats_proofs.
Open Scope nat_scope.

(** Usages for the examples: a file name with -o or --output, -v or --verbose, -q, --version and -l
    or --level with an optional argument. *)
Definition d_output := {| index := 0; type := 0; shortopt := s "o"; longopt := s "output"; check_arg := Arg_Required |}.
Definition d_verbose := {| index := 1; type := 1; shortopt := s "v"; longopt := s "verbose"; check_arg := Arg_None |}.
Definition d_quiet := {| index := 1; type := 0; shortopt := s "q"; longopt := []; check_arg := Arg_None |}.
Definition d_version := {| index := 2; type := 0; shortopt := []; longopt := s "version"; check_arg := Arg_None |}.
Definition d_level := {| index := 3; type := 0; shortopt := s "l"; longopt := s "level"; check_arg := Arg_Optional |}.
Definition example_usage := [d_output; d_verbose; d_quiet; d_version; d_level].
Definition example_line := [s "-v"; s "in"; s "--out=a.txt"; s "-qvo"; s "b"; s "--version"; s "--"; s "-q"; s "in2"].

Lemma example_sane : sane example_usage.
Proof. repeat constructor; cbn; intros H; repeat (destruct H as [H|H]; [discriminate H|]); exact H. Qed.
Lemma example_indices : small_indices example_usage.
Proof. unfold small_indices, example_usage. repeat (apply Forall_cons; [reflexivity|]). apply Forall_nil. Qed.
Lemma example_usual : Forall (fun d => usual (check_arg d)) example_usage.
Proof. unfold usual. repeat (constructor; [cbn; tauto|]). constructor. Qed.
Lemma example_steady : steady example_usage.
Proof. exact (usual_steady _ example_usual). Qed.
Lemma example_clear_cut : clear_cut example_usage.
Proof. exact (usual_clear_cut _ example_usual). Qed.

(** C111.  Arrays of the sizes that Stats gives are large enough for parsing the same command lines, and one slot remains.
    Missing: options that take some next elements and ignore others, with gnu; indices from 2^31 - 1 on; and
    2^31 - 1 options or more.  See the refutations. *)
Theorem C111_partial cs st cs' : Forall call_ok cs -> add_all no_stats cs = (st, cs') -> (buffer_max st < 0x7fffffff)%N ->
  exists p, parse_all (sized_parser st) cs' = Some p /\ (N.of_nat (length (stored (arrays p))) < buffer_max st)%N.
Proof. exact (memory_lemma cs st cs'). Qed.
Print Assumptions C111_partial.
Definition example_call (g a : bool) (l : list text) : call :=
  {| gnu_ := g; again_ := a; usage_ := example_usage; min_ := 3; single_ := false; argv_ := l |}.
Example C111_nonvacuous :
  let cs := [example_call true false example_line; example_call false false [s "-q"; s "-lx"; s "file"]] in
  let (st, cs') := add_all no_stats cs in
  Forall call_ok cs /\ buffer_max st = 9%N /\ options_max st = 5%N /\
  exists p, parse_all (sized_parser st) cs' = Some p /\ length (stored (arrays p)) = 8.
Proof.
  cbv zeta. destruct (add_all no_stats _) as [st cs'] eqn:E. vm_compute in E. injection E as <- <-. split.
  { apply Forall_cons; [|apply Forall_cons; [|apply Forall_nil]]; (split; [|split; [|exact example_indices]]).
    - intros _. reflexivity.
    - right. exact example_steady.
    - intros _. reflexivity.
    - now left. }
  split; [reflexivity|]. split; [reflexivity|].
  match goal with |- exists p, ?x = _ /\ _ => destruct x as [p|] eqn:E; [exists p; split; [reflexivity|] | exfalso; revert E; vm_compute; discriminate] end.
  apply (f_equal (option_map (fun p => length (stored (arrays p))))) in E. vm_compute in E. injection E as E. symmetry. exact E.
Qed.
(** An option that takes the next element if it is a negative number: what was a file name is elsewhere after the
    reordering, so that more options are stored than Stats counted, behind the end of the buffer. *)
Definition takes_negative (n : text) (a : option text) : arg_status :=
  match a with Some (c :: _) => if Ascii.eqb c "-" then ARG_OK else ARG_IGNORE | _ => ARG_IGNORE end.
Definition d_a := {| index := 0; type := 0; shortopt := s "a"; longopt := []; check_arg := takes_negative |}.
Definition d_5 := {| index := 1; type := 0; shortopt := s "5"; longopt := []; check_arg := Arg_Required |}.
Definition d_c := {| index := 2; type := 0; shortopt := s "c"; longopt := []; check_arg := Arg_None |}.
Theorem C111_refuted : exists c st c', gnu_ c = true /\ again_ c = true /\ small_indices (usage_ c) /\ add_all no_stats [c] = (st, [c']) /\
  (buffer_max st < 0x7fffffff)%N /\ parse_all (sized_parser st) [c'] = None.
Proof.
  exists {| gnu_ := true; again_ := true; usage_ := [d_a; d_5; d_c]; min_ := 0; single_ := false; argv_ := [s "-a"; s "file"; s "-5"; s "-ccc"] |}.
  eexists. eexists. split; [reflexivity|]. split; [reflexivity|]. split; [repeat (apply Forall_cons; [reflexivity|]); apply Forall_nil|].
  split; [vm_compute; reflexivity|]. split; [reflexivity|]. vm_compute. reflexivity.
Qed.
Print Assumptions C111_refuted.
(** With index 2^32 - 1, as from -1, the number of lists stays 1. *)
Theorem C111_index_refuted : exists c st c', gnu_ c = false /\ steady (usage_ c) /\ flags_match c /\ add_all no_stats [c] = (st, [c']) /\
  options_max st = 1%N /\ parse_all (sized_parser st) [c'] = None.
Proof.
  exists {| gnu_ := false; again_ := false; usage_ := [{| index := 2 ^ 32 - 1; type := 0; shortopt := s "v"; longopt := []; check_arg := Arg_None |}];
            min_ := 0; single_ := false; argv_ := [s "-v"] |}.
  eexists. eexists. split; [reflexivity|]. split; [intros d n x y [<-|[]] _; discriminate|]. split; [intros _; reflexivity|].
  split; [lazy; reflexivity|]. split; [reflexivity|]. lazy. reflexivity.
Qed.
Print Assumptions C111_index_refuted.
(** With bufmax not greater than the buffer no command line whatsoever makes parse leave the arrays, and at most bufmax options are there afterwards. *)
Theorem C111_bounded o b p gnu usage min single_minus c argv : supported b -> built o b p -> c <= b ->
  Forall (fun d => (index d < 2 ^ 31)%N /\ (index d < N.of_nat o)%N) usage ->
  exists p' argv', parse gnu usage min single_minus (Some c) argv p = Some (p', argv') /\ length (stored (arrays p')) <= Nat.max c (length (stored (arrays p))).
Proof. exact (bounded_lemma o b p gnu usage min single_minus c argv). Qed.
Print Assumptions C111_bounded.
Example C111_bounded_nonvacuous : supported 2 /\ Forall (fun d => (index d < 2 ^ 31)%N /\ (index d < N.of_nat 4)%N) example_usage /\
  option_map (fun r => map (fun x => (type (desc x), arg x)) (stored (arrays (fst r)))) (parse true example_usage 3 false (Some 2) example_line (new_parser 4 2)) =
  Some [(1%Z, None); (0%Z, Some (s "a.txt"))].
Proof.
  split; [reflexivity|]. split; [unfold example_usage; repeat (apply Forall_cons; [split; reflexivity|]); apply Forall_nil|]. vm_compute. reflexivity.
Qed.

(** C112.  The options read, whether there was an error, the non-options and the reordered arguments are those of the rules
    for options, arguments, groups, "--" and non-options. *)
Theorem C112_reading o b p gnu usage min single_minus bufmax argv p' argv' : supported b -> built o b p -> sane usage ->
  parse gnu usage min single_minus bufmax argv p = Some (p', argv') ->
  exists line os ok, map fst line = argv /\ reading usage min single_minus gnu line os ok /\
    stored (arrays p') = stored (arrays p) ++ kept bufmax (length (stored (arrays p))) os /\
    error p' = negb ok /\
    nonOptions p' = (if ok then match operands line with [] => nonOptions p | _ => operands line end else nonOptions p) /\
    argv' = others line ++ operands line ++ unread line.
Proof. exact (reading_lemma o b p gnu usage min single_minus bufmax argv p' argv'). Qed.
Print Assumptions C112_reading.
(** No argument is lost or duplicated by the reordering ... *)
Theorem C112_permutation o b p gnu usage min single_minus bufmax argv p' argv' : supported b -> built o b p -> sane usage ->
  parse gnu usage min single_minus bufmax argv p = Some (p', argv') -> Permutation argv argv'.
Proof. exact (permutation_lemma o b p gnu usage min single_minus bufmax argv p' argv'). Qed.
Print Assumptions C112_permutation.
(** ... and without gnu nothing moves. *)
Theorem C112_posix o b p usage min single_minus bufmax argv p' argv' : supported b -> built o b p ->
  parse false usage min single_minus bufmax argv p = Some (p', argv') -> argv' = argv.
Proof. exact (posix_lemma o b p usage min single_minus bufmax argv p' argv'). Qed.
Print Assumptions C112_posix.
Example C112_nonvacuous : sane example_usage /\ supported 9 /\ built 5 9 (new_parser 5 9) /\
  option_map (fun r => (map (fun x => (index (desc x), type (desc x), arg x)) (stored (arrays (fst r))), nonOptions (fst r), error (fst r), snd r))
    (parse true example_usage 3 false None example_line (new_parser 5 9)) =
  Some ([(1%N, 1%Z, None); (0%N, 0%Z, Some (s "a.txt")); (1%N, 0%Z, None); (1%N, 1%Z, None); (0%N, 0%Z, Some (s "b")); (2%N, 0%Z, None)],
        [s "in"; s "-q"; s "in2"], false,
        [s "-v"; s "--out=a.txt"; s "-qvo"; s "b"; s "--version"; s "--"; s "in"; s "-q"; s "in2"]).
Proof. split; [exact example_sane|]. split; [reflexivity|]. split; [apply built_new|]. vm_compute. reflexivity. Qed.
(** An error: -o lacks its argument.  --ver abbreviates two options and there is no descriptor for unknown ones: nothing is read. *)
Example C112_error : option_map (fun r => (map (fun x => index (desc x)) (stored (arrays (fst r))), error (fst r), snd r))
    (parse true example_usage 3 false None [s "in"; s "--ver"; s "-q"; s "-o"] (new_parser 5 9)) =
  Some ([1%N], true, [s "--ver"; s "-q"; s "in"; s "-o"]).
Proof. vm_compute. reflexivity. Qed.

(** C113.  After Stats has reordered the arguments, parsing them gives the same as parsing the original ones, if each option
    either ignores the next element or must have one.  Missing: other options, and gnu == false for the parser when there is an
    error; see the refutations. *)
Theorem C113_partial gnu gnu2 usage min single_minus bufmax argv p st st' argv1 : (buffer_max st <= 0x7fffffff)%N -> clear_cut usage ->
  add gnu usage min single_minus argv st = (st', argv1) -> (buffer_max st' < 0x7fffffff)%N ->
  gnu2 = gnu \/ gnu = true /\ (exists p' a, parse gnu usage min single_minus bufmax argv p = Some (p', a) /\ error p' = false) ->
  option_map fst (parse gnu2 usage min single_minus bufmax argv1 p) = option_map fst (parse gnu usage min single_minus bufmax argv p).
Proof. exact (again_lemma gnu gnu2 usage min single_minus bufmax argv p st st' argv1). Qed.
Print Assumptions C113_partial.
Example C113_nonvacuous : clear_cut example_usage /\ let (st, argv1) := add true example_usage 3 false example_line no_stats in
  argv1 = [s "-v"; s "--out=a.txt"; s "-qvo"; s "b"; s "--version"; s "--"; s "in"; s "-q"; s "in2"] /\
  option_map (fun r => error (fst r)) (parse true example_usage 3 false None example_line (sized_parser st)) = Some false.
Proof. split; [exact example_clear_cut|]. vm_compute. split; reflexivity. Qed.
(** The usual check functions are such: each option ignores the next element or must have one, and none takes some next
    elements only. *)
Theorem C113_usual usage : Forall (fun d => usual (check_arg d)) usage -> clear_cut usage /\ steady usage.
Proof. exact (fun U => conj (usual_clear_cut usage U) (usual_steady usage U)). Qed.
Print Assumptions C113_usual.
Example C113_usual_nonvacuous : Forall (fun d => usual (check_arg d)) example_usage /\ check_arg d_level = Arg_Optional.
Proof. split; [exact example_usual|reflexivity]. Qed.
(** Arg::Optional takes an argument if and only if it is attached. *)
Theorem C113_optional n a : n <> [] -> Arg_Optional n a = ARG_OK <-> a <> None /\ ~ bare n.
Proof. exact (optional_lemma n a). Qed.
Print Assumptions C113_optional.
Example C113_optional_nonvacuous : ~ bare (s "--level=3") /\ ~ bare (s "l3") /\ bare (s "--level") /\ bare (s "l").
Proof.
  split; [|split; [|split]].
  - intros [[c H]|[r [[= <-] N]]]; [discriminate|]. apply N. cbn. tauto.
  - intros [[c H]|[r [H _]]]; discriminate.
  - right. eexists. split; [reflexivity|]. cbn. intuition discriminate.
  - left. now eexists.
Qed.
(** "It is enough to pass gnu == true when creating Stats": not if there is an error. *)
Theorem C113_flag_refuted : exists usage argv st argv1 p1 a1 p2 a2, clear_cut usage /\ add true usage 0 false argv no_stats = (st, argv1) /\
  parse true usage 0 false None argv1 (sized_parser st) = Some (p1, a1) /\ error p1 = true /\
  parse false usage 0 false None argv1 (sized_parser st) = Some (p2, a2) /\ error p2 = false.
Proof.
  exists [d_output], [s "file"; s "-o"]. do 6 eexists. split.
  { intros d n [<-|[]] _. right. split; [reflexivity|]. intros x. now left. }
  split; [vm_compute; reflexivity|]. split; [vm_compute; reflexivity|]. split; [reflexivity|]. split; [vm_compute; reflexivity|]. reflexivity.
Qed.
Print Assumptions C113_flag_refuted.
(** An option that takes the next element if there is one. *)
Definition takes_any (n : text) (a : option text) : arg_status := match a with Some _ => ARG_OK | None => ARG_IGNORE end.
Theorem C113_optional_refuted : exists usage argv st argv1 p1 a1 p2 a2, add true usage 0 false argv no_stats = (st, argv1) /\
  parse true usage 0 false None argv (sized_parser st) = Some (p1, a1) /\ nonOptions p1 = [s "file"] /\ map arg (stored (arrays p1)) = [None] /\
  parse true usage 0 false None argv1 (sized_parser st) = Some (p2, a2) /\ nonOptions p2 = [] /\ map arg (stored (arrays p2)) = [Some (s "file")].
Proof.
  exists [{| index := 0; type := 0; shortopt := s "o"; longopt := []; check_arg := takes_any |}], [s "file"; s "-o"]. do 6 eexists.
  split; [vm_compute; reflexivity|]. split; [vm_compute; reflexivity|]. split; [reflexivity|]. split; [reflexivity|].
  split; [vm_compute; reflexivity|]. split; reflexivity.
Qed.
Print Assumptions C113_optional_refuted.

(** C114.  The list of an index has the options of that index in the order of the command lines, after any number of calls of parse. *)
Theorem C114_lists o b p i : supported b -> built o b p -> i < o -> list_at (arrays p) i = with_index i (stored (arrays p)).
Proof. exact (lists_lemma o b p i). Qed.
Print Assumptions C114_lists.
(** From each of its elements the first, last, next and previous ones and their number are right. *)
Theorem C114_walk o b p i k x : supported b -> built o b p -> i < o -> nth_error (chain (arrays p) i) k = Some x ->
  first (arrays p) x = Some (O i) /\ last (arrays p) x = nth_error (chain (arrays p) i) (length (chain (arrays p) i) - 1) /\
  next (arrays p) x = nth_error (chain (arrays p) i) (S k) /\
  prev (arrays p) x = (match k with 0 => None | S j => nth_error (chain (arrays p) i) j end) /\
  count (arrays p) x = Some (length (list_at (arrays p) i)).
Proof. exact (walk_lemma o b p i k x). Qed.
Print Assumptions C114_walk.
Example C114_nonvacuous : exists p, built 5 9 p /\ supported 9 /\ chain (arrays p) 1 = [O 1; B 2; B 3; B 6] /\
  map (fun x => type (desc x)) (list_at (arrays p) 1) = [1%Z; 0%Z; 1%Z; 0%Z] /\ list_at (arrays p) 4 = [] /\ count (arrays p) (B 3) = Some 4.
Proof.
  destruct (parse true example_usage 3 false None example_line (new_parser 5 9)) as [[p1 a1]|] eqn:E1; [|exfalso; revert E1; vm_compute; discriminate].
  pose proof (built_parse 5 9 _ _ _ _ _ _ _ _ _ (built_new 5 9) E1) as B1. vm_compute in E1. injection E1 as <- <-.
  match type of B1 with built _ _ ?p => destruct (parse false example_usage 3 false None [s "-q"; s "x"] p) as [[p2 a2]|] eqn:E2; [|exfalso; revert E2; vm_compute; discriminate] end.
  pose proof (built_parse 5 9 _ _ _ _ _ _ _ _ _ B1 E2) as B2. vm_compute in E2. injection E2 as <- <-.
  eexists. split; [exact B2|]. split; [reflexivity|]. split; [vm_compute; reflexivity|]. split; [vm_compute; reflexivity|]. split; vm_compute; reflexivity.
Qed.

(** C115.  -abc is -a -bc if a takes no argument ... *)
Theorem C115_group o b p gnu usage min bufmax c c' r (post : list text) d p1 p2 a1 a2 : supported b -> built o b p ->
  c <> "-"%char -> c' <> "-"%char -> for_short usage c (Some d) -> (forall n a, ignores (check_arg d n a)) ->
  parse gnu usage min false bufmax (("-"%char :: c :: c' :: r) :: post) p = Some (p1, a1) ->
  parse gnu usage min false bufmax (["-"%char; c] :: ("-"%char :: c' :: r) :: post) p = Some (p2, a2) -> alike p1 p2.
Proof. exact (group_lemma o b p gnu usage min bufmax c c' r post d p1 p2 a1 a2). Qed.
Print Assumptions C115_group.
(** ... -ofile is -o file ... *)
Theorem C115_attached o b p gnu usage min bufmax c r (post : list text) d p1 p2 a1 a2 : supported b -> built o b p ->
  c <> "-"%char -> r <> [] -> for_short usage c (Some d) -> check_arg d (c :: r) (Some r) = ARG_OK -> check_arg d [c] (Some r) = ARG_OK ->
  parse gnu usage min false bufmax (("-"%char :: c :: r) :: post) p = Some (p1, a1) ->
  parse gnu usage min false bufmax (["-"%char; c] :: r :: post) p = Some (p2, a2) -> alike p1 p2.
Proof. exact (attached_lemma o b p gnu usage min bufmax c r post d p1 p2 a1 a2). Qed.
Print Assumptions C115_attached.
(** ... and --name=value is --name value, if the check function accepts both. *)
Theorem C115_long o b p gnu usage min single_minus bufmax (n v : text) (post : list text) d p1 p2 a1 a2 : supported b -> built o b p -> sane usage ->
  n <> [] -> ~ In "="%char n -> for_long usage min n (Some d) ->
  check_arg d ("-"%char :: "-"%char :: n ++ "="%char :: v) (Some v) = ARG_OK -> check_arg d ("-"%char :: "-"%char :: n) (Some v) = ARG_OK ->
  parse gnu usage min single_minus bufmax (("-"%char :: "-"%char :: n ++ "="%char :: v) :: post) p = Some (p1, a1) ->
  parse gnu usage min single_minus bufmax (("-"%char :: "-"%char :: n) :: v :: post) p = Some (p2, a2) -> alike p1 p2.
Proof. exact (long_lemma o b p gnu usage min single_minus bufmax n v post d p1 p2 a1 a2). Qed.
Print Assumptions C115_long.
Example C115_nonvacuous : for_short example_usage "v" (Some d_verbose) /\ for_short example_usage "o" (Some d_output) /\ for_long example_usage 3 (s "outp") (Some d_output) /\
  let r l := option_map (fun x => (map (fun y => (index (desc y), arg y)) (stored (arrays (fst x))), nonOptions (fst x))) (parse true example_usage 3 false None l (new_parser 5 9)) in
  r [s "-vq"; s "x"] = Some ([(1%N, None); (1%N, None)], [s "x"]) /\ r [s "-v"; s "-q"; s "x"] = Some ([(1%N, None); (1%N, None)], [s "x"]) /\
  r [s "-ofile"; s "x"] = Some ([(0%N, Some (s "file"))], [s "x"]) /\ r [s "-o"; s "file"; s "x"] = Some ([(0%N, Some (s "file"))], [s "x"]) /\
  r [s "--outp=file"; s "x"] = Some ([(0%N, Some (s "file"))], [s "x"]) /\ r [s "--outp"; s "file"; s "x"] = Some ([(0%N, Some (s "file"))], [s "x"]).
Proof.
  split.
  { left. exists d_verbose. split; [|reflexivity]. exists [d_output], [d_quiet; d_version; d_level]. split; [reflexivity|]. split; [now left|].
    apply Forall_cons; [|apply Forall_nil]. intros [H|[]]. discriminate H. }
  split.
  { left. exists d_output. split; [|reflexivity]. exists [], [d_verbose; d_quiet; d_version; d_level]. split; [reflexivity|]. split; [now left|apply Forall_nil]. }
  split.
  { left. exists d_output. split; [|reflexivity]. right. split; [unfold example_usage; repeat (apply Forall_cons; [discriminate|]); apply Forall_nil|].
    exists [], [d_verbose; d_quiet; d_version; d_level]. split; [reflexivity|]. split; [split; [cbn; lia|]; exists (s "ut"); reflexivity|].
    cbn [app]. repeat (apply Forall_cons; [intros (_ & q & H); discriminate H|]). apply Forall_nil. }
  cbv zeta. repeat split; vm_compute; reflexivity.
Qed.

(** C116.  One element --name or --name=value is at most one option, of the descriptor of that name: the first one of exactly this
    name, or the only one it abbreviates, or the one for unknown options. *)
Theorem C116_long o b p gnu usage min single_minus bufmax n q v p' a : supported b -> built o b p -> sane usage -> n <> [] -> stem n q v ->
  parse gnu usage min single_minus bufmax ["-"%char :: "-"%char :: n] p = Some (p', a) ->
  exists os, stored (arrays p') = stored (arrays p) ++ os /\ length os <= 1 /\ Forall (fun x => for_long usage min q (Some (desc x))) os.
Proof. exact (long_only o b p gnu usage min single_minus bufmax n q v p' a). Qed.
Print Assumptions C116_long.
(** So it is never an option without a long name.  Missing: the empty name; see C116_refuted. *)
Theorem C116_partial o b p gnu usage min single_minus bufmax n q v p' a : supported b -> built o b p -> sane usage -> n <> [] -> stem n q v -> q <> [] ->
  parse gnu usage min single_minus bufmax ["-"%char :: "-"%char :: n] p = Some (p', a) ->
  exists os, stored (arrays p') = stored (arrays p) ++ os /\ Forall (fun x => longopt (desc x) <> [] \/ dummy (desc x)) os.
Proof.
  intros H1 H2 H3 H4 H5 H6 H7. destruct (long_only _ _ _ _ _ _ _ _ _ _ _ _ _ H1 H2 H3 H4 H5 H7) as (os & E & _ & F). exists os. split; [exact E|].
  eapply Forall_impl; [|exact F]. intros x. exact (named_lemma usage min q (desc x) H6).
Qed.
Print Assumptions C116_partial.
Example C116_nonvacuous : stem (s "verb=1") (s "verb") (Some (s "1")) /\
  option_map (fun r => map (fun x => longopt (desc x)) (stored (arrays (fst r)))) (parse true example_usage 3 false None [s "--verb=1"] (new_parser 5 9)) = Some [s "verbose"].
Proof.
  split; [|vm_compute; reflexivity]. split; [|reflexivity]. intros H. cbn in H. repeat (destruct H as [H|H]; [discriminate H|]). exact H.
Qed.
(** --= and a value is read as the first option that has only a short name. *)
Theorem C116_refuted : exists p' a, parse true example_usage 3 false None [s "--=1"] (new_parser 5 9) = Some (p', a) /\ error p' = false /\
  map desc (stored (arrays p')) = [d_quiet] /\ longopt d_quiet = [] /\ ~ dummy d_quiet.
Proof. do 2 eexists. split; [vm_compute; reflexivity|]. split; [reflexivity|]. split; [reflexivity|]. split; [reflexivity|]. intros [H _]. discriminate H. Qed.
Print Assumptions C116_refuted.
