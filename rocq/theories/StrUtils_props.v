(** Properties C01, C02, C03, C11. *)
From Verif Require Import Str Str_spec Str_proofs StrUtils_model StrUtils_spec StrUtils_proofs.

(** *** C01 *)

(** Whenever replace_all returns, no occurrence is left, the text results from
    replacing leftmost occurrences, and the count is the number of replacements
    (as an unsigned int). *)
Theorem C01_replace_all_result : forall fuel st a b st' n,
  replace_all fuel st a b = Some (st', n) ->
  ~ contains st' a /\ exists k, rewrites a b k st st' /\ n = (N.of_nat k mod 2 ^ 32)%N.
Proof. exact replace_all_sound_lemma. Qed.
Print Assumptions C01_replace_all_result.

Example C01_replace_all_result_nonvacuous :
  replace_all 10 (s "a::b::c") (s "::") (s "/") = Some (s "a/b/c", 2%N).
Proof. reflexivity. Qed.

(** It returns as soon as leftmost replacement can reach a text without
    occurrences, with that text. *)
Theorem C01_replace_all_reaches_normal_form : forall st a b k st',
  rewrites a b k st st' -> ~ contains st' a ->
  forall fuel, k < fuel -> replace_all fuel st a b = Some (st', N.of_nat k mod 2 ^ 32)%N.
Proof. exact replace_all_complete_lemma. Qed.
Print Assumptions C01_replace_all_reaches_normal_form.

Example C01_replace_all_reaches_normal_form_nonvacuous :
  rewrites (s "ab") (s "ba") 1 (s "ab") (s "ba") /\ ~ contains (s "ba") (s "ab").
Proof.
  split.
  - eapply rw_step with (u := []) (v := []); [|constructor].
    split; [reflexivity|]. intros; cbn; lia.
  - apply sfind_none. reflexivity.
Qed.

(** Partial: it returns when the replacement is shorter than the searched
    string, or has fewer copies of some character. *)
Theorem C01_replace_all_returns_partial : forall st a b,
  (exists c, count c b < count c a) \/ length b < length a ->
  exists st' n, forall fuel, length st < fuel -> replace_all fuel st a b = Some (st', n).
Proof. exact replace_all_terminates_lemma. Qed.
Print Assumptions C01_replace_all_returns_partial.

Example C01_replace_all_returns_partial_nonvacuous :
  (exists c, count c (s "::") < count c (s "/")) \/ length (s "::") < length (s "/").
Proof. left. exists "/"%char. cbn. lia. Qed.

(** The full claim "replace_all always returns" fails even for a non-empty
    searched string that the replacement does not contain. *)
Theorem C01_replace_all_returns_refuted : exists st a b,
  a <> [] /\ ~ contains b a /\ forall fuel, replace_all fuel st a b = None.
Proof. exact replace_all_returns_refuted_lemma. Qed.
Print Assumptions C01_replace_all_returns_refuted.

(** It never returns when the replacement contains a searched string that occurs
    (in particular for an empty searched string). *)
Theorem C01_replace_all_self_insertion_diverges : forall st a b,
  contains b a -> contains st a -> forall fuel, replace_all fuel st a b = None.
Proof. exact replace_all_self_diverges. Qed.
Print Assumptions C01_replace_all_self_insertion_diverges.

Example C01_self_insertion_nonvacuous :
  contains (s "%20%") (s "%") /\ contains (s "100%") (s "%") /\ contains (s "x") [] /\ contains [] [].
Proof. repeat split; apply sfind_contains; eexists; reflexivity. Qed.

(** *** C02 *)

Theorem C02_split_string : forall source d fuel, d <> [] -> length source < fuel ->
  exists l, split_string fuel source d = Some l /\ splits d source l.
Proof. exact split_string_lemma. Qed.
Print Assumptions C02_split_string.

(** what [splits] entails: at least one piece, joining is the inverse, no piece
    contains the delimiter *)
Theorem C02_split_join : forall d source l, splits d source l ->
  l <> [] /\ join d l = source /\ Forall (fun p => ~ contains p d) l.
Proof. exact splits_props. Qed.
Print Assumptions C02_split_join.

Example C02_split_string_nonvacuous :
  split_string 20 (s "a, b,, c") (s ", ") = Some [s "a"; s "b,"; s "c"] /\
  split_string 20 (s "aaa") (s "aa") = Some [s ""; s "a"].
Proof. split; reflexivity. Qed.

Theorem C02_split_string_set : forall source ds fuel,
  Forall (fun d => d <> []) ds -> length source < fuel ->
  exists l, split_string_set fuel source ds = Some l /\ good_split ds source l.
Proof. exact split_set_lemma. Qed.
Print Assumptions C02_split_string_set.

Example C02_split_string_set_nonvacuous :
  split_string_set 20 (s "a b;c") [s " "; s ";"] = Some [s "a"; s "b"; s "c"].
Proof. reflexivity. Qed.

(** With an empty delimiter the call never returns, for any source. *)
Theorem C02_split_string_returns_refuted : forall source fuel, split_string fuel source [] = None.
Proof. exact (fun t fuel => split_empty_diverges fuel t 0 (Nat.le_0_l _)). Qed.
Print Assumptions C02_split_string_returns_refuted.

(** *** C03 *)

Theorem C03_strip_default : forall t fuel, length t < fuel ->
  strip_str_default fuel t =
  Some (filter (fun x => negb (Ascii.eqb x newline || Ascii.eqb x carriage_return)) t,
        N.of_nat (length (filter (fun x => Ascii.eqb x newline || Ascii.eqb x carriage_return) t)) mod 2 ^ 32)%N.
Proof. exact strip_default_lemma. Qed.
Print Assumptions C03_strip_default.

Example C03_strip_default_nonvacuous :
  strip_str_default 20 (s "ab" ++ [carriage_return; newline] ++ s "c" ++ [newline]) = Some (s "abc", 3%N).
Proof. reflexivity. Qed.

(** any set of single characters *)
Theorem C03_strip_chars : forall chars t fuel, length t < fuel ->
  strip_str fuel t [] (map (fun c => [c]) chars) =
  Some (filter (fun x => negb (memb x chars)) t, N.of_nat (length (filter (fun x => memb x chars) t)) mod 2 ^ 32)%N.
Proof. exact strip_str_chars_lemma. Qed.
Print Assumptions C03_strip_chars.

Example C03_strip_chars_nonvacuous : strip_str 9 (s "a-b_c") [] (map (fun c => [c]) (s "-_")) = Some (s "abc", 2%N).
Proof. reflexivity. Qed.

(** stripping non-empty strings always returns *)
Theorem C03_strip_returns : forall undesired t fuel,
  Forall (fun u => u <> []) undesired -> length t < fuel -> exists t' m, strip_str fuel t [] undesired = Some (t', m).
Proof. exact strip_str_returns_lemma. Qed.
Print Assumptions C03_strip_returns.

Example C03_strip_returns_nonvacuous : Forall (fun u => u <> []) [s "ab"; s "c"].
Proof. repeat constructor; discriminate. Qed.

(** For strings longer than one character the result may still contain an
    undesired one: the set {"ab","c"} on "acb" leaves "ab". *)
Theorem C03_strip_removes_all_refuted : exists t undesired fuel t' n u,
  Forall (fun u => u <> []) undesired /\ strip_str fuel t [] undesired = Some (t', n) /\
  In u undesired /\ contains t' u.
Proof. exact strip_removes_all_refuted_lemma. Qed.
Print Assumptions C03_strip_removes_all_refuted.

(** *** C11 *)

Theorem C11_case_laws : forall st,
  to_lowercase (to_lowercase st) = to_lowercase st /\
  to_uppercase (to_uppercase st) = to_uppercase st /\
  to_lowercase (to_uppercase st) = to_lowercase st /\
  to_uppercase (to_lowercase st) = to_uppercase st /\
  length (to_lowercase st) = length st /\ length (to_uppercase st) = length st.
Proof. exact case_laws_lemma. Qed.
Print Assumptions C11_case_laws.

Theorem C11_to_lowercase_chars : forall st i c, nth_error st i = Some c ->
  exists d, nth_error (to_lowercase st) i = Some d /\
    (is_lower_of d c \/ (d = c /\ ~ In c upper_letters)).
Proof. exact lower_char_lemma. Qed.
Print Assumptions C11_to_lowercase_chars.

Theorem C11_to_uppercase_chars : forall st i c, nth_error st i = Some c ->
  exists d, nth_error (to_uppercase st) i = Some d /\
    (is_lower_of c d \/ (d = c /\ ~ In c lower_letters)).
Proof. exact upper_char_lemma. Qed.
Print Assumptions C11_to_uppercase_chars.

Example C11_nonvacuous : to_uppercase (s "kiB-9z") = s "KIB-9Z" /\ nth_error (s "kiB") 2 = Some "B"%char.
Proof. split; reflexivity. Qed.
