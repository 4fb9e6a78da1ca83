From Verif Require Import Str Str_proofs Dll_model Dll_spec.

(** what a program does not touch it leaves alone *)
Fixpoint touches (x : name) (p : code) : bool := match p with
  | Define y _ | Undef y => name_eqb y x | Seq a b | If _ a b => touches x a || touches x b | Skip | Error | Link _ => false end.
Lemma frame x p : touches x p = false -> forall st st', run p st = Some st' -> fst st' x = fst st x.
Proof.
  induction p as [|y b|y| |l|a IHa b IHb|c a IHa b IHb]; cbn [touches run]; intros T st st' R.
  - injection R as <-. reflexivity.
  - injection R as <-. unfold update. cbn [fst]. rewrite T. reflexivity.
  - injection R as <-. unfold update. cbn [fst]. rewrite T. reflexivity.
  - discriminate.
  - injection R as <-. reflexivity.
  - apply orb_false_iff in T as [Ta Tb]. destruct (run a st) as [st1|] eqn:E; [|discriminate]. rewrite (IHb Tb _ _ R). exact (IHa Ta _ _ E).
  - apply orb_false_iff in T as [Ta Tb]. destruct (holds c (fst st)); [exact (IHa Ta _ _ R)|exact (IHb Tb _ _ R)].
Qed.
Lemma seq_inv a b st st' : run (Seq a b) st = Some st' -> exists st1, run a st = Some st1 /\ run b st1 = Some st'.
Proof. cbn [run]. destruct (run a st) as [st1|]; [|discriminate]. intro R. exists st1. split; [reflexivity|exact R]. Qed.
Lemma once_inv x body (e : env) l st' : e x = None -> run (once x body) (e, l) = Some st' -> run body (update e x (Some []), l) = Some st'.
Proof. intros N. unfold once. cbn [run holds fst snd]. rewrite N. cbn [is_some]. exact (fun R => R). Qed.
Lemma update_same e x b : update e x b x = b.
Proof. unfold update, name_eqb. destruct x as [m x|x]; [rewrite str_eqb_refl|]; destruct x; reflexivity. Qed.
Lemma name_eqb_eq a b : name_eqb a b = true -> a = b.
Proof.
  unfold name_eqb. destruct a as [m x|x], b as [n y|y]; try discriminate.
  - intro H. apply andb_true_iff in H as [A B]. apply str_eqb_eq in B. subst n. destruct x, y; first [reflexivity|discriminate A].
  - destruct x, y; first [reflexivity|discriminate].
Qed.
Lemma update_other e x y b : y <> x -> update e x b y = e y.
Proof. intro H. unfold update. destruct (name_eqb x y) eqn:Q; [apply name_eqb_eq in Q; congruence|reflexivity]. Qed.
Ltac eqs := unfold name_eqb; cbn [own_eqb common_eqb andb]; rewrite ?str_eqb_refl.
Ltac sim := repeat (cbn [run holds is_some fst snd negb andb orb]; unfold update, name_eqb; cbn [own_eqb common_eqb andb]; rewrite ?str_eqb_refl; cbn [andb]).
Ltac untouched := unfold config_h, normalize, api, user_api, debug_tag, prefix, comment_lib, undef_all, auto_link_h, auto_linking, once, default; cbn [touches]; unfold name_eqb; cbn [own_eqb common_eqb andb orb]; reflexivity.

(** library_dll.h.in:20-36 *)
Lemma normalize_some p (e : env) l st : run (normalize p) (e, l) = Some st ->
  (given (fst st) (Own (macro p) DYN_LINK) <-> dynamic e (macro p)) /\ ~ contradictory e (macro p) /\ (given (fst st) (Own (macro p) NO_LIB) <-> given e (Own (macro p) NO_LIB) \/ given e (Common ALL_NO_LIB)) /\ snd st = l.
Proof.
  unfold normalize, dynamic, contradictory, dynamic, given. sim.
  destruct (e (Own (macro p) DYN_LINK)) eqn:A, (e (Common ALL_DYN_LINK)) eqn:B, (e (Own (macro p) STATIC_LINK)) eqn:C, (e (Common ALL_STATIC_LINK)) eqn:D, (e (Own (macro p) NO_LIB)) eqn:E, (e (Common ALL_NO_LIB)) eqn:F;
    sim; rewrite ?A, ?B, ?C, ?D, ?E, ?F; sim; rewrite ?A, ?B, ?C, ?D, ?E, ?F; sim; rewrite ?A, ?B, ?C, ?D, ?E, ?F; sim; intro R; try discriminate R; apply (f_equal (fun o => match o with Some x => x | None => (e, l) end)) in R; subst st; sim; rewrite ?A, ?B, ?C, ?D, ?E, ?F; intuition congruence.
Qed.
Lemma normalize_none p (e : env) l : run (normalize p) (e, l) = None -> contradictory e (macro p).
Proof.
  unfold normalize, contradictory, dynamic, given. sim.
  destruct (e (Own (macro p) DYN_LINK)) eqn:A, (e (Common ALL_DYN_LINK)) eqn:B, (e (Own (macro p) STATIC_LINK)) eqn:C, (e (Common ALL_STATIC_LINK)) eqn:D, (e (Own (macro p) NO_LIB)) eqn:E, (e (Common ALL_NO_LIB)) eqn:F;
    sim; rewrite ?A, ?B, ?C, ?D, ?E, ?F; sim; rewrite ?A, ?B, ?C, ?D, ?E, ?F; sim; rewrite ?A, ?B, ?C, ?D, ?E, ?F; sim; intro R; try discriminate R; intuition congruence.
Qed.
(** programs without errors *)
Fixpoint safe (p : code) : bool := match p with Error => false | Seq a b | If _ a b => safe a && safe b | _ => true end.
Lemma safe_run p : safe p = true -> forall st, exists st', run p st = Some st'.
Proof.
  induction p as [|y b|y| |l|a IHa b IHb|c a IHa b IHb]; cbn [safe run]; intros T st; try (eexists; reflexivity).
  - discriminate.
  - apply andb_true_iff in T as [Ta Tb]. destruct (IHa Ta st) as [st1 E]. rewrite E. exact (IHb Tb st1).
  - apply andb_true_iff in T as [Ta Tb]. destruct (holds c (fst st)); [exact (IHa Ta st)|exact (IHb Tb st)].
Qed.
(** programs that link nothing *)
Fixpoint quiet (p : code) : bool := match p with Link _ => false | Seq a b | If _ a b => quiet a && quiet b | _ => true end.
Lemma quiet_run p : quiet p = true -> forall st st', run p st = Some st' -> snd st' = snd st.
Proof.
  induction p as [|y b|y| |l|a IHa b IHb|c a IHa b IHb]; cbn [quiet run]; intros T st st' R; try discriminate; try (injection R as <-; reflexivity).
  - apply andb_true_iff in T as [Ta Tb]. destruct (run a st) as [st1|] eqn:E; [|discriminate]. rewrite (IHb Tb _ _ R). exact (IHa Ta _ _ E).
  - apply andb_true_iff in T as [Ta Tb]. destruct (holds c (fst st)); [exact (IHa Ta _ _ R)|exact (IHb Tb _ _ R)].
Qed.
Lemma not_given e x : ~ given e x -> e x = None.
Proof. unfold given. destruct (e x); [intro H; exfalso; apply H; discriminate|reflexivity]. Qed.
Lemma given_some e x : given e x -> exists b, e x = Some b.
Proof. unfold given. destruct (e x) as [b|]; [intros _; exists b; reflexivity|intro H; destruct (H eq_refl)]. Qed.
Lemma given_dec e x : given e x \/ ~ given e x.
Proof. unfold given. destruct (e x); [left; discriminate|right; intro H; apply H; reflexivity]. Qed.

(** config.h.in *)
Lemma default_value x y b e l st : run (default x b) (e, l) = Some st -> fst st y = match e y with Some t => Some t | None => if name_eqb x y then Some b else None end.
Proof.
  unfold default. cbn [run holds fst snd]. destruct (e x) as [t|] eqn:E; cbn [is_some]; intro R; apply (f_equal (fun o => match o with Some x => x | None => (e, l) end)) in R; subst st; cbn [fst].
  - destruct (e y) as [u|] eqn:F; [reflexivity|]. destruct (name_eqb x y) eqn:Q; [apply name_eqb_eq in Q; subst y; rewrite E in F; discriminate|reflexivity].
  - unfold update. destruct (name_eqb x y) eqn:Q; [apply name_eqb_eq in Q; subst y; rewrite E; reflexivity|destruct (e y); reflexivity].
Qed.
Definition versions (p : module) : list (own * str) := [(VERSION_MAJOR, major p); (VERSION_MINOR, minor p); (VERSION_MICRO, patch p); (VERSION_STRING, quoted (version_string p)); (COMMIT_HASH, quoted (commit p))].
Lemma config_value p (e : env) l st x b : e (Own (macro p) CONFIG_GUARD) = None -> In (x, b) (versions p) -> run (config_h p) (e, l) = Some st ->
  fst st (Own (macro p) x) = Some (match e (Own (macro p) x) with Some t => t | None => b end).
Proof.
  intros G I R. unfold config_h in R. apply (once_inv _ _ _ _ _ G) in R. apply seq_inv in R as ([e1 l1] & R1 & R). apply seq_inv in R as ([e2 l2] & R2 & R). apply seq_inv in R as ([e3 l3] & R3 & R). apply seq_inv in R as ([e4 l4] & R4 & R5).
  pose proof (default_value _ (Own (macro p) x) _ _ _ _ R1) as V1. pose proof (default_value _ (Own (macro p) x) _ _ _ _ R2) as V2. pose proof (default_value _ (Own (macro p) x) _ _ _ _ R3) as V3.
  pose proof (default_value _ (Own (macro p) x) _ _ _ _ R4) as V4. pose proof (default_value _ (Own (macro p) x) _ _ _ _ R5) as V5. clear R1 R2 R3 R4 R5. cbn [fst] in V1, V2, V3, V4.
  rewrite V5, V4, V3, V2, V1. clear V1 V2 V3 V4 V5. unfold versions in I. cbn [In] in I.
  destruct I as [I|[I|[I|[I|[I|[]]]]]]; pose proof (f_equal fst I) as J; pose proof (f_equal snd I) as K; cbn [fst snd] in J, K; subst x b; unfold update, name_eqb; cbn [own_eqb andb]; rewrite ?str_eqb_refl; match goal with |- context [e ?z] => destruct (e z) end; reflexivity.
Qed.
(** library_dll.h.in:40-52 *)
Lemma api_value p (e : env) l st : run (api p) (e, l) = Some st -> let d := given e (Common ALL_DYN_LINK) \/ given e (Own (macro p) DYN_LINK) in
  (given e (Common WIN32) -> d -> given e (Own (macro p) SOURCE) -> fst st (Own (macro p) DllAPI) = Some (s "__declspec( dllexport )")) /\
  (given e (Common WIN32) -> d -> ~ given e (Own (macro p) SOURCE) -> fst st (Own (macro p) DllAPI) = Some (s "__declspec( dllimport )")) /\
  (~ given e (Common WIN32) \/ ~ d -> fst st (Own (macro p) DllAPI) = Some []).
Proof.
  unfold api, given. sim.
  destruct (e (Common WIN32)) eqn:A, (e (Common ALL_DYN_LINK)) eqn:B, (e (Own (macro p) DYN_LINK)) eqn:C, (e (Own (macro p) SOURCE)) eqn:D; sim; intro R;
    apply (f_equal (fun o => match o with Some x => x | None => (e, l) end)) in R; subst st; sim; intuition congruence.
Qed.
Lemma user_value p (e : env) l st : run (user_api p) (e, l) = Some st ->
  (given e (Common WIN32) -> given e (Own (macro p) USER_DLL_EXPORT) -> fst st (Own (macro p) USERDllExport) = Some (s "__declspec(dllexport)")) /\
  (~ given e (Common WIN32) \/ ~ given e (Own (macro p) USER_DLL_EXPORT) -> fst st (Own (macro p) USERDllExport) = Some []).
Proof.
  unfold user_api, given. sim. destruct (e (Common WIN32)) eqn:A, (e (Own (macro p) USER_DLL_EXPORT)) eqn:B; sim; intro R;
    apply (f_equal (fun o => match o with Some x => x | None => (e, l) end)) in R; subst st; sim; intuition congruence.
Qed.
(** eProsima_auto_link.h.in *)
Definition asked (p : module) (e : env) (n a b : str) : str :=
  (if is_some (e (Common EPROSIMA_DYN_LINK)) then [] else s "lib") ++ n ++ (if is_some (e (Common DEBUG)) then s "d" else []) ++ s "-" ++ a ++ s "." ++ b ++ s ".lib".
Lemma concat_asked x n d a b : concat [x; n; d; s "-"; a; s "."; b; s ".lib"] = x ++ n ++ d ++ s "-" ++ a ++ s "." ++ b ++ s ".lib".
Proof. cbn [concat]. rewrite app_nil_r. reflexivity. Qed.
Lemma auto_run p (e : env) l n a b : e (Common AUTOLINK_GUARD) = None -> e (Own (macro p) LIB_NAME) = Some n -> e (Own (macro p) VERSION_MAJOR) = Some a -> e (Own (macro p) VERSION_MINOR) = Some b ->
  match run (auto_link_h p) (e, l) with
  | None => given e (Common MSC_VER) /\ given e (Common EPROSIMA_DYN_LINK) /\ ~ given e (Common DLL) /\ ~ given e (Common RTLDLL)
  | Some st => snd st = (if is_some (e (Common MSC_VER)) then l ++ [asked p e n a b] else l) /\ ~ (given e (Common MSC_VER) /\ given e (Common EPROSIMA_DYN_LINK) /\ ~ given e (Common DLL) /\ ~ given e (Common RTLDLL))
  end.
Proof.
  intros G N A B. unfold auto_link_h, once, undef_all, debug_tag, prefix, comment_lib, given, asked. sim. rewrite G. sim.
  destruct (e (Common MSC_VER)) eqn:C; sim; [|intuition congruence].
  destruct (e (Common DEBUG)) eqn:D, (e (Common DLL)) eqn:E, (e (Common RTLDLL)) eqn:F, (e (Common EPROSIMA_DYN_LINK)) eqn:H; sim; rewrite ?D, ?E, ?F, ?H, ?N, ?A, ?B; sim; rewrite ?D, ?E, ?F, ?H, ?N, ?A, ?B; sim; rewrite ?N, ?A, ?B; sim;
    first [(split; [unfold map, text; sim; rewrite ?N, ?A, ?B; rewrite concat_asked; reflexivity|intuition congruence])|intuition congruence].
Qed.
(** library_dll.h.in:63-75 *)
Lemma linking_run p (e : env) l a b : e (Common AUTOLINK_GUARD) = None -> e (Own (macro p) VERSION_MAJOR) = Some a -> e (Own (macro p) VERSION_MINOR) = Some b ->
  let off := given e (Own (macro p) SOURCE) \/ given e (Common ALL_NO_LIB) \/ given e (Own (macro p) NO_LIB) in let d := given e (Common ALL_DYN_LINK) \/ given e (Own (macro p) DYN_LINK) \/ given e (Common EPROSIMA_DYN_LINK) in
  let bad := ~ off /\ given e (Common MSC_VER) /\ d /\ ~ given e (Common DLL) /\ ~ given e (Common RTLDLL) in
  match run (auto_linking p) (e, l) with
  | None => bad
  | Some st => ~ bad /\ (off \/ ~ given e (Common MSC_VER) -> snd st = l) /\
      (~ off -> given e (Common MSC_VER) -> exists pre tag, snd st = l ++ [pre ++ module_name p ++ tag ++ s "-" ++ a ++ s "." ++ b ++ s ".lib"] /\ (d -> pre = []) /\ (~ d -> pre = s "lib") /\
        (given e (Common DEBUG) -> tag = s "d") /\ (~ given e (Common DEBUG) -> tag = []))
  end.
Proof.
  intros G A B off d bad. assert (O : holds (And (And (Not (Defined (Own (macro p) SOURCE))) (Not (Defined (Common ALL_NO_LIB)))) (Not (Defined (Own (macro p) NO_LIB)))) e = true <-> ~ off).
  { unfold off, given. cbn [holds]. destruct (e (Own (macro p) SOURCE)), (e (Common ALL_NO_LIB)), (e (Own (macro p) NO_LIB)); cbn [is_some negb andb]; intuition congruence. }
  unfold auto_linking. cbn [run]. cbn [fst snd]. destruct (holds (And _ _) e) eqn:HO.
  - assert (NO : ~ off) by (apply O; reflexivity). clear O HO.
    set (e1 := update e (Own (macro p) LIB_NAME) (Some (module_name p))).
    assert (X : exists e2, (if holds (Or (Defined (Common ALL_DYN_LINK)) (Defined (Own (macro p) DYN_LINK))) e1 then Some (update e1 (Common EPROSIMA_DYN_LINK) (Some []), l) else Some (e1, l)) = Some (e2, l) /\
      (given e2 (Common EPROSIMA_DYN_LINK) <-> d) /\ forall x, x <> Common EPROSIMA_DYN_LINK -> e2 x = e1 x).
    { assert (HV : holds (Or (Defined (Common ALL_DYN_LINK)) (Defined (Own (macro p) DYN_LINK))) e1 = is_some (e (Common ALL_DYN_LINK)) || is_some (e (Own (macro p) DYN_LINK))) by (subst e1; sim; reflexivity).
      assert (HE : e1 (Common EPROSIMA_DYN_LINK) = e (Common EPROSIMA_DYN_LINK)) by (subst e1; sim; reflexivity). rewrite HV. clear HV. unfold d, given.
      destruct (e (Common ALL_DYN_LINK)) eqn:C, (e (Own (macro p) DYN_LINK)) eqn:D; cbn [is_some orb]; eexists; (split; [reflexivity|]); rewrite ?update_same, ?HE; (split; [intuition congruence|]).
      all: intros x H; try reflexivity; apply update_other; congruence. }
    destruct X as (e2 & X & Y & Z). fold e1. match goal with |- context [match ?z with Some st' => run (auto_link_h p) st' | None => None end] => assert (XX : z = Some (e2, l)) by exact X; rewrite XX; clear XX end. clear X.
    assert (Z' : forall x, x <> Common EPROSIMA_DYN_LINK -> x <> Own (macro p) LIB_NAME -> e2 x = e x).
    { intros x H K. rewrite Z by exact H. subst e1. unfold update. destruct (name_eqb (Own (macro p) LIB_NAME) x) eqn:Q; [apply name_eqb_eq in Q; congruence|reflexivity]. }
    assert (N2 : e2 (Own (macro p) LIB_NAME) = Some (module_name p)) by (rewrite Z by discriminate; apply update_same).
    assert (G2 : e2 (Common AUTOLINK_GUARD) = None) by (rewrite Z' by discriminate; exact G). assert (A2 : e2 (Own (macro p) VERSION_MAJOR) = Some a) by (rewrite Z' by discriminate; exact A). assert (B2 : e2 (Own (macro p) VERSION_MINOR) = Some b) by (rewrite Z' by discriminate; exact B).
    pose proof (auto_run p e2 l (module_name p) a b G2 N2 A2 B2) as R. unfold given in R. rewrite (Z' (Common MSC_VER)), (Z' (Common DLL)), (Z' (Common RTLDLL)) in R by discriminate. fold (given e2 (Common EPROSIMA_DYN_LINK)) in R.
    revert R. destruct (run (auto_link_h p) (e2, l)) as [st|]; intro R.
    + destruct R as [R Q]. split; [|split].
      * unfold bad. intros (_ & M & D & E & F). apply Q. split; [exact M|]. split; [apply Y; exact D|]. split; [exact E|exact F].
      * intros [H|H]; [contradiction|]. apply not_given in H. rewrite H in R. exact R.
      * intros _ M. apply given_some in M as [t M]. rewrite M in R. cbn [is_some] in R. unfold asked in R. rewrite (Z' (Common DEBUG)) in R by discriminate. eexists _, _. split; [exact R|]. split; [|split; [|split]].
        -- intro D. apply Y in D. apply given_some in D as [u D]. rewrite D. reflexivity.
        -- intro D. destruct (e2 (Common EPROSIMA_DYN_LINK)) eqn:U; [|reflexivity]. exfalso. apply D. apply Y. unfold given. rewrite U. discriminate.
        -- intro D. apply given_some in D as [u D]. rewrite D. reflexivity.
        -- intro D. apply not_given in D. rewrite D. reflexivity.
    + destruct R as (M & D & E & F). split; [exact NO|]. split; [exact M|]. split; [apply Y; exact D|]. split; [exact E|exact F].
  - assert (NO : off). { unfold off, given. cbn [holds] in HO. destruct (e (Own (macro p) SOURCE)), (e (Common ALL_NO_LIB)), (e (Own (macro p) NO_LIB)); cbn [is_some negb andb] in HO; try discriminate HO; intuition congruence. }
    split; [unfold bad; intros (H & _); exact (H NO)|]. split; [reflexivity|]. intro H. destruct (H NO).
Qed.

Section Header.
Variable p : module. Variable e : env. Variable l : list str.
Hypothesis fresh : ~ given e (Own (macro p) DLL_GUARD).
Notation mine x := (Own (macro p) x).
Let e0 := update e (mine DLL_GUARD) (Some []).
Lemma header_split : run (library_dll_h p) (e, l) = run (Seq (config_h p) (Seq (normalize p) (Seq (api p) (Seq (user_api p) (auto_linking p))))) (e0, l).
Proof. unfold library_dll_h, once. cbn [run holds fst snd]. rewrite (not_given _ _ fresh). reflexivity. Qed.
Lemma header_parts : 
  run (library_dll_h p) (e, l) = None /\ contradictory e (macro p) \/
  exists s1 s2 s3 s4, run (config_h p) (e0, l) = Some s1 /\ run (normalize p) s1 = Some s2 /\ run (api p) s2 = Some s3 /\ run (user_api p) s3 = Some s4 /\ run (library_dll_h p) (e, l) = run (auto_linking p) s4 /\ ~ contradictory e (macro p) /\ snd s4 = l.
Proof.
  rewrite header_split. destruct (safe_run (config_h p) eq_refl (e0, l)) as [s1 R1].
  assert (K : forall x, In x [mine DYN_LINK; mine STATIC_LINK; Common ALL_DYN_LINK] -> fst s1 x = e x).
  { intros x I. assert (fst s1 x = e0 x) as -> by (apply (frame x (config_h p)) with (st := (e0, l)); [cbn [In] in I; destruct I as [<-|[<-|[<-|[]]]]; untouched|exact R1]). cbn [In] in I. destruct I as [<-|[<-|[<-|[]]]]; reflexivity. }
  assert (C : contradictory (fst s1) (macro p) <-> contradictory e (macro p)). { unfold contradictory, dynamic, given. rewrite !K by (cbn [In]; tauto). tauto. }
  assert (Q1 : snd s1 = l) by exact (quiet_run (config_h p) eq_refl _ _ R1).
  destruct s1 as [f1 l1]. cbn [fst snd] in *. subst l1. destruct (run (normalize p) (f1, l)) as [s2|] eqn:R2.
  - right. pose proof (normalize_some p f1 l s2 R2) as (_ & NC & _ & Q2). destruct (safe_run (api p) eq_refl s2) as [s3 R3]. destruct (safe_run (user_api p) eq_refl s3) as [s4 R4]. exists (f1, l), s2, s3, s4.
    split; [exact R1|]. split; [exact R2|]. split; [exact R3|]. split; [exact R4|]. split; [|split; [tauto|]].
    + change (match run (config_h p) (e0, l) with Some st' => match run (normalize p) st' with Some st' => match run (api p) st' with Some st' => match run (user_api p) st' with Some st' => run (auto_linking p) st' | None => None end | None => None end | None => None end | None => None end = run (auto_linking p) s4).
      rewrite R1, R2, R3, R4. reflexivity.
    + rewrite (quiet_run (user_api p) eq_refl _ _ R4), (quiet_run (api p) eq_refl _ _ R3). exact Q2.
  - left. split; [|apply C; exact (normalize_none p f1 l R2)].
    change (match run (config_h p) (e0, l) with Some st' => match run (normalize p) st' with Some st' => match run (api p) st' with Some st' => match run (user_api p) st' with Some st' => run (auto_linking p) st' | None => None end | None => None end | None => None end | None => None end = None).
    rewrite R1, R2. reflexivity.
Qed.
Lemma stays x s1 s2 s3 s4 : run (config_h p) (e0, l) = Some s1 -> run (normalize p) s1 = Some s2 -> run (api p) s2 = Some s3 -> run (user_api p) s3 = Some s4 ->
  In x [mine SOURCE; Common ALL_NO_LIB; Common ALL_DYN_LINK; Common EPROSIMA_DYN_LINK; Common MSC_VER; Common DLL; Common RTLDLL; Common DEBUG; Common AUTOLINK_GUARD; Common WIN32; mine USER_DLL_EXPORT] ->
  fst s1 x = e x /\ fst s2 x = e x /\ fst s3 x = e x /\ fst s4 x = e x.
Proof.
  intros R1 R2 R3 R4 I. assert (A : touches x (config_h p) = false /\ touches x (normalize p) = false /\ touches x (api p) = false /\ touches x (user_api p) = false /\ e0 x = e x).
  { cbn [In] in I. repeat (destruct I as [<-|I]; [split; [untouched|split; [untouched|split; [untouched|split; [untouched|reflexivity]]]]|]). destruct I. }
  destruct A as (A1 & A2 & A3 & A4 & A5). rewrite (frame x _ A4 _ _ R4), (frame x _ A3 _ _ R3), (frame x _ A2 _ _ R2), (frame x _ A1 _ _ R1). cbn [fst]. rewrite A5. tauto.
Qed.
End Header.
Section Whole.
Variable p : module. Variable e : env. Variable l : list str.
Notation mine x := (Own (macro p) x).
Lemma dyn_after s1 s2 : run (config_h p) (update e (mine DLL_GUARD) (Some []), l) = Some s1 -> run (normalize p) s1 = Some s2 ->
  (given (fst s2) (mine DYN_LINK) <-> dynamic e (macro p)) /\ (given (fst s2) (mine NO_LIB) <-> given e (mine NO_LIB) \/ given e (Common ALL_NO_LIB)).
Proof.
  intros R1 R2. assert (K : forall x, In x [mine DYN_LINK; mine NO_LIB; Common ALL_DYN_LINK; Common ALL_NO_LIB] -> fst s1 x = e x).
  { intros x I. assert (fst s1 x = update e (mine DLL_GUARD) (Some []) x) as -> by (apply (frame x (config_h p)) with (st := (update e (mine DLL_GUARD) (Some []), l)); [cbn [In] in I; destruct I as [<-|[<-|[<-|[<-|[]]]]]; untouched|exact R1]).
    cbn [In] in I. destruct I as [<-|[<-|[<-|[<-|[]]]]]; reflexivity. }
  destruct s1 as [f1 l1]. destruct (normalize_some p f1 l1 s2 R2) as (D & _ & N & _). cbn [fst] in K. clear R1 R2.
  assert (G : forall x, In x [mine DYN_LINK; mine NO_LIB; Common ALL_DYN_LINK; Common ALL_NO_LIB] -> (given f1 x <-> given e x)) by (intros x I; unfold given; rewrite (K x I); split; exact (fun H => H)).
  pose proof (G (mine DYN_LINK) ltac:(cbn [In]; tauto)) as G1. pose proof (G (mine NO_LIB) ltac:(cbn [In]; tauto)) as G2. pose proof (G (Common ALL_DYN_LINK) ltac:(cbn [In]; tauto)) as G3. pose proof (G (Common ALL_NO_LIB) ltac:(cbn [In]; tauto)) as G4. clear G K.
  unfold dynamic in D |- *. split; [rewrite D, G1, G3; split; exact (fun H => H)|rewrite N, G2, G4; split; exact (fun H => H)].
Qed.
Lemma api_lemma st : ~ given e (mine DLL_GUARD) -> run (library_dll_h p) (e, l) = Some st ->
  (given e (Common WIN32) -> dynamic e (macro p) -> given e (mine SOURCE) -> fst st (mine DllAPI) = Some (s "__declspec( dllexport )")) /\
  (given e (Common WIN32) -> dynamic e (macro p) -> ~ given e (mine SOURCE) -> fst st (mine DllAPI) = Some (s "__declspec( dllimport )")) /\
  (~ given e (Common WIN32) \/ ~ dynamic e (macro p) -> fst st (mine DllAPI) = Some []).
Proof.
  intros F R. destruct (header_parts p e l F) as [[N _]|(s1 & s2 & s3 & s4 & R1 & R2 & R3 & R4 & H & _)]; [rewrite R in N; discriminate|]. rewrite R in H. symmetry in H.
  assert (E : fst st (mine DllAPI) = fst s3 (mine DllAPI)). { rewrite (frame (mine DllAPI) (auto_linking p) ltac:(untouched) _ _ H). exact (frame (mine DllAPI) (user_api p) ltac:(untouched) _ _ R4). }
  rewrite E. pose proof (dyn_after s1 s2 R1 R2) as [D _]. destruct s2 as [f2 l2]. pose proof (api_value p f2 l2 s3 R3) as V. cbv zeta in V.
  destruct (stays p e l (Common WIN32) s1 (f2, l2) s3 s4 R1 R2 R3 R4 ltac:(cbn [In]; tauto)) as (_ & W & _). destruct (stays p e l (Common ALL_DYN_LINK) s1 (f2, l2) s3 s4 R1 R2 R3 R4 ltac:(cbn [In]; tauto)) as (_ & AD & _).
  destruct (stays p e l (mine SOURCE) s1 (f2, l2) s3 s4 R1 R2 R3 R4 ltac:(cbn [In]; tauto)) as (_ & SO & _). cbn [fst] in W, AD, SO, D.
  assert (GW : given f2 (Common WIN32) <-> given e (Common WIN32)) by (unfold given; rewrite W; tauto). assert (GA : given f2 (Common ALL_DYN_LINK) <-> given e (Common ALL_DYN_LINK)) by (unfold given; rewrite AD; tauto).
  assert (GS : given f2 (mine SOURCE) <-> given e (mine SOURCE)) by (unfold given; rewrite SO; tauto). assert (DD : given f2 (Common ALL_DYN_LINK) \/ given f2 (mine DYN_LINK) <-> dynamic e (macro p)) by (unfold dynamic in *; tauto).
  destruct V as (V1 & V2 & V3). split; [|split].
  - intros A B C. apply V1; [apply GW, A|apply DD, B|apply GS, C].
  - intros A B C. apply V2; [apply GW, A|apply DD, B|intro X; apply C, GS, X].
  - intros [A|A]; apply V3; [left; intro X; apply A, GW, X|right; intro X; apply A, DD, X].
Qed.
Lemma user_lemma st : ~ given e (mine DLL_GUARD) -> run (library_dll_h p) (e, l) = Some st ->
  (given e (Common WIN32) -> given e (mine USER_DLL_EXPORT) -> fst st (mine USERDllExport) = Some (s "__declspec(dllexport)")) /\ (~ given e (Common WIN32) \/ ~ given e (mine USER_DLL_EXPORT) -> fst st (mine USERDllExport) = Some []).
Proof.
  intros F R. destruct (header_parts p e l F) as [[N _]|(s1 & s2 & s3 & s4 & R1 & R2 & R3 & R4 & H & _)]; [rewrite R in N; discriminate|]. rewrite R in H. symmetry in H.
  rewrite (frame (mine USERDllExport) (auto_linking p) ltac:(untouched) _ _ H). destruct s3 as [f3 l3]. pose proof (user_value p f3 l3 s4 R4) as V.
  destruct (stays p e l (Common WIN32) s1 s2 (f3, l3) s4 R1 R2 R3 R4 ltac:(cbn [In]; tauto)) as (_ & _ & W & _). destruct (stays p e l (mine USER_DLL_EXPORT) s1 s2 (f3, l3) s4 R1 R2 R3 R4 ltac:(cbn [In]; tauto)) as (_ & _ & U & _).
  cbn [fst] in W, U. unfold given in *. rewrite W, U in V. exact V.
Qed.
Lemma version_lemma st x b : ~ given e (mine DLL_GUARD) -> ~ given e (mine CONFIG_GUARD) -> In (x, b) (versions p) -> run (library_dll_h p) (e, l) = Some st -> fst st (mine x) = Some (match e (mine x) with Some t => t | None => b end).
Proof.
  intros F C I R. destruct (header_parts p e l F) as [[N _]|(s1 & s2 & s3 & s4 & R1 & R2 & R3 & R4 & H & _)]; [rewrite R in N; discriminate|]. rewrite R in H. symmetry in H.
  assert (T : touches (mine x) (auto_linking p) = false /\ touches (mine x) (user_api p) = false /\ touches (mine x) (api p) = false /\ touches (mine x) (normalize p) = false /\ mine x <> mine DLL_GUARD).
  { unfold versions in I. cbn [In] in I. destruct I as [I|[I|[I|[I|[I|[]]]]]]; pose proof (f_equal fst I) as J; cbn [fst] in J; subst x; (split; [untouched|split; [untouched|split; [untouched|split; [untouched|discriminate]]]]). }
  destruct T as (T1 & T2 & T3 & T4 & T5). rewrite (frame _ _ T1 _ _ H), (frame _ _ T2 _ _ R4), (frame _ _ T3 _ _ R3), (frame _ _ T4 _ _ R2).
  rewrite (config_value p (update e (mine DLL_GUARD) (Some [])) l s1 x b); [|rewrite update_other by discriminate; exact (not_given _ _ C)|exact I|exact R1]. rewrite update_other by exact T5. reflexivity.
Qed.
Hypothesis fresh : not_included e (macro p).
Hypothesis version : forall x, In x [CONFIG_GUARD; VERSION_MAJOR; VERSION_MINOR] -> ~ given e (mine x).
Lemma linked_lemma :
  match run (library_dll_h p) (e, l) with
  | None => contradictory e (macro p) \/ automatic e (macro p) /\ (dynamic e (macro p) \/ given e (Common EPROSIMA_DYN_LINK)) /\ ~ given e (Common DLL) /\ ~ given e (Common RTLDLL)
  | Some st => ~ contradictory e (macro p) /\ ~ (automatic e (macro p) /\ (dynamic e (macro p) \/ given e (Common EPROSIMA_DYN_LINK)) /\ ~ given e (Common DLL) /\ ~ given e (Common RTLDLL)) /\
      (~ automatic e (macro p) -> snd st = l) /\
      (automatic e (macro p) -> exists pre tag, snd st = l ++ [pre ++ module_name p ++ tag ++ s "-" ++ major p ++ s "." ++ minor p ++ s ".lib"] /\
        (dynamic e (macro p) \/ given e (Common EPROSIMA_DYN_LINK) -> pre = []) /\ (~ (dynamic e (macro p) \/ given e (Common EPROSIMA_DYN_LINK)) -> pre = s "lib") /\
        (given e (Common DEBUG) -> tag = s "d") /\ (~ given e (Common DEBUG) -> tag = []))
  end.
Proof.
  destruct fresh as [F G]. destruct (header_parts p e l F) as [[N C]|(s1 & s2 & s3 & s4 & R1 & R2 & R3 & R4 & H & NC & Q)]; [rewrite N; left; exact C|]. rewrite H. clear H.
  pose proof (dyn_after s1 s2 R1 R2) as [D NL].
  assert (P : forall x b, In (x, b) [(VERSION_MAJOR, major p); (VERSION_MINOR, minor p)] -> fst s4 (mine x) = Some b).
  { intros x b I. assert (T : touches (mine x) (user_api p) = false /\ touches (mine x) (api p) = false /\ touches (mine x) (normalize p) = false).
    { cbn [In] in I. destruct I as [I|[I|[]]]; pose proof (f_equal fst I) as J; cbn [fst] in J; subst x; (split; [untouched|split; untouched]). }
    destruct T as (T1 & T2 & T3). rewrite (frame _ _ T1 _ _ R4), (frame _ _ T2 _ _ R3), (frame _ _ T3 _ _ R2).
    rewrite (config_value p (update e (mine DLL_GUARD) (Some [])) l s1 x b); [|rewrite update_other by discriminate; apply not_given, version; cbn [In]; tauto|unfold versions; cbn [In] in I |- *; tauto|exact R1].
    rewrite update_other by (cbn [In] in I; destruct I as [I|[I|[]]]; pose proof (f_equal fst I) as J; cbn [fst] in J; subst x; discriminate).
    rewrite (not_given e (mine x)); [reflexivity|]. apply version. cbn [In] in I. destruct I as [I|[I|[]]]; pose proof (f_equal fst I) as J; cbn [fst] in J; subst x; cbn [In]; tauto. }
  assert (K : forall x, In x [mine SOURCE; Common ALL_NO_LIB; Common ALL_DYN_LINK; Common EPROSIMA_DYN_LINK; Common MSC_VER; Common DLL; Common RTLDLL; Common DEBUG; Common AUTOLINK_GUARD; Common WIN32; mine USER_DLL_EXPORT] -> fst s4 x = e x)
    by (intros x I; exact (proj2 (proj2 (proj2 (stays p e l x s1 s2 s3 s4 R1 R2 R3 R4 I))))).
  assert (K2 : fst s4 (mine DYN_LINK) = fst s2 (mine DYN_LINK)) by (rewrite (frame (mine DYN_LINK) (user_api p) ltac:(untouched) _ _ R4); exact (frame (mine DYN_LINK) (api p) ltac:(untouched) _ _ R3)).
  assert (K3 : fst s4 (mine NO_LIB) = fst s2 (mine NO_LIB)) by (rewrite (frame (mine NO_LIB) (user_api p) ltac:(untouched) _ _ R4); exact (frame (mine NO_LIB) (api p) ltac:(untouched) _ _ R3)).
  destruct s4 as [f4 l4]. cbn [fst snd] in *. subst l4.
  assert (G4 : f4 (Common AUTOLINK_GUARD) = None) by (rewrite K by (cbn [In]; tauto); exact (not_given _ _ G)).
  pose proof (linking_run p f4 l (major p) (minor p) G4 (P VERSION_MAJOR _ ltac:(cbn [In]; tauto)) (P VERSION_MINOR _ ltac:(cbn [In]; tauto))) as L. cbv zeta in L.
  assert (KG : forall x, In x [mine SOURCE; Common ALL_NO_LIB; Common ALL_DYN_LINK; Common EPROSIMA_DYN_LINK; Common MSC_VER; Common DLL; Common RTLDLL; Common DEBUG; Common AUTOLINK_GUARD; Common WIN32; mine USER_DLL_EXPORT] -> (given f4 x <-> given e x))
    by (intros x I; unfold given; rewrite (K x I); tauto).
  pose proof (KG (mine SOURCE) ltac:(cbn [In]; tauto)) as KS. pose proof (KG (Common ALL_NO_LIB) ltac:(cbn [In]; tauto)) as KN. pose proof (KG (Common ALL_DYN_LINK) ltac:(cbn [In]; tauto)) as KA. pose proof (KG (Common EPROSIMA_DYN_LINK) ltac:(cbn [In]; tauto)) as KE.
  pose proof (KG (Common MSC_VER) ltac:(cbn [In]; tauto)) as KM. pose proof (KG (Common DLL) ltac:(cbn [In]; tauto)) as KD. pose proof (KG (Common RTLDLL) ltac:(cbn [In]; tauto)) as KR. pose proof (KG (Common DEBUG) ltac:(cbn [In]; tauto)) as KB.
  assert (XN : given f4 (mine NO_LIB) <-> given e (mine NO_LIB) \/ given e (Common ALL_NO_LIB)) by (unfold given at 1; rewrite K3; exact NL).
  assert (XD : given f4 (mine DYN_LINK) <-> dynamic e (macro p)) by (unfold given at 1; rewrite K2; exact D).
  clear K K2 K3 KG P D NL R1 R2 R3 R4 G4 G F fresh version.
  assert (OFF : given f4 (mine SOURCE) \/ given f4 (Common ALL_NO_LIB) \/ given f4 (mine NO_LIB) <-> given e (mine SOURCE) \/ given e (Common ALL_NO_LIB) \/ given e (mine NO_LIB)) by (clear - KS KN XN; tauto).
  assert (DD : given f4 (Common ALL_DYN_LINK) \/ given f4 (mine DYN_LINK) \/ given f4 (Common EPROSIMA_DYN_LINK) <-> dynamic e (macro p) \/ given e (Common EPROSIMA_DYN_LINK)) by (clear - KA KE XD; unfold dynamic in *; tauto).
  assert (AU : automatic e (macro p) <-> ~ (given f4 (mine SOURCE) \/ given f4 (Common ALL_NO_LIB) \/ given f4 (mine NO_LIB)) /\ given f4 (Common MSC_VER)) by (clear - OFF KM; unfold automatic; tauto).
  assert (ND : given f4 (mine SOURCE) \/ given f4 (Common ALL_NO_LIB) \/ given f4 (mine NO_LIB) \/ ~ (given f4 (mine SOURCE) \/ given f4 (Common ALL_NO_LIB) \/ given f4 (mine NO_LIB))).
  { destruct (given_dec f4 (mine SOURCE)) as [X|X]; [left; exact X|]. destruct (given_dec f4 (Common ALL_NO_LIB)) as [Y|Y]; [right; left; exact Y|]. destruct (given_dec f4 (mine NO_LIB)) as [Z|Z]; [right; right; left; exact Z|]. right; right; right. intros [H|[H|H]]; contradiction. }
  pose proof (given_dec f4 (Common MSC_VER)) as MD. clear KS KN KA KE XN XD.
  revert L. generalize dependent (run (auto_linking p) (f4, l)). intros o L. remember (given f4 (mine SOURCE) \/ given f4 (Common ALL_NO_LIB) \/ given f4 (mine NO_LIB)) as off eqn:EO. remember (given f4 (Common ALL_DYN_LINK) \/ given f4 (mine DYN_LINK) \/ given f4 (Common EPROSIMA_DYN_LINK)) as dyn eqn:ED.
  assert (ND' : off \/ ~ off) by (clear - EO ND; subst off; tauto). clear ND EO ED OFF. remember (dynamic e (macro p) \/ given e (Common EPROSIMA_DYN_LINK)) as dyn' eqn:ED'. clear ED'. remember (automatic e (macro p)) as au eqn:EA. clear EA.
  destruct o as [st|].
  - destruct L as (L1 & L2 & L3). split; [exact NC|]. split; [clear - L1 AU DD KD KR; tauto|]. split.
    + intro N. apply L2. clear - N AU ND' MD. tauto.
    + intro A. apply AU in A as [A M]. destruct (L3 A M) as (pre & tag & E & X1 & X2 & X3 & X4). exists pre, tag. split; [exact E|]. clear - X1 X2 X3 X4 DD KB. tauto.
  - right. clear - L AU DD KD KR. tauto.
Qed.
End Whole.
Lemma again_lemma p st st' : ~ given (fst st) (Own (macro p) DLL_GUARD) -> run (library_dll_h p) st = Some st' -> run (library_dll_h p) st' = Some st'.
Proof.
  destruct st as [e l]. cbn [fst]. intros F R. rewrite (header_split p e l F) in R.
  assert (T : touches (Own (macro p) DLL_GUARD) (Seq (config_h p) (Seq (normalize p) (Seq (api p) (Seq (user_api p) (auto_linking p))))) = false) by untouched.
  pose proof (frame _ _ T _ _ R) as G. cbn [fst] in G. rewrite update_same in G. unfold library_dll_h, once. cbn [run holds]. rewrite G. reflexivity.
Qed.
(** the builds of compile_library.cmake *)
Lemma start_not c t shared inside m x : cmake_defines c shared inside x m || match x with Common y => compiler_defines c t y | Own _ _ => false end = false -> ~ given (start c t shared inside m) x.
Proof. intro H. unfold given, start. rewrite H. intro N. apply N. reflexivity. Qed.
Lemma start_yes c t shared inside m x : cmake_defines c shared inside x m || match x with Common y => compiler_defines c t y | Own _ _ => false end = true -> given (start c t shared inside m) x.
Proof. intro H. unfold given, start. rewrite H. discriminate. Qed.
Lemma start_fresh c t shared inside m : not_included (start c t shared inside m) m.
Proof. split; apply start_not; destruct c; reflexivity. Qed.
Lemma start_version c t shared inside m x : In x [CONFIG_GUARD; VERSION_MAJOR; VERSION_MINOR] -> ~ given (start c t shared inside m) (Own m x).
Proof. intro I. apply start_not. cbn [In] in I. destruct I as [<-|[<-|[<-|[]]]]; destruct c; reflexivity. Qed.
Lemma start_dynamic t shared inside m : dynamic (start Msvc t shared inside m) m <-> shared = true.
Proof.
  unfold dynamic. split.
  - intros [H|H]; destruct shared; try reflexivity; exfalso; revert H; apply start_not; reflexivity.
  - intros ->. left. apply start_yes. cbn [cmake_defines andb]. rewrite str_eqb_refl. reflexivity.
Qed.
Lemma start_static c t shared inside m : ~ contradictory (start c t shared inside m) m.
Proof. intros [_ H]. revert H. apply start_not. destruct c; reflexivity. Qed.
Lemma built_lemma p (shared : bool) t : exists e', run (library_dll_h p) (start Msvc t shared false (macro p), []) =
  Some (e', [(if shared then [] else s "lib") ++ module_name p ++ match t with Debug => s "d" | _ => [] end ++ s "-" ++ major p ++ s "." ++ minor p ++ s ".lib"]).
Proof.
  pose proof (linked_lemma p (start Msvc t shared false (macro p)) [] (start_fresh _ _ _ _ _) (start_version _ _ _ _ _)) as L.
  destruct (run (library_dll_h p) (start Msvc t shared false (macro p), [])) as [[e' l']|].
  - destruct L as (_ & _ & _ & L). exists e'. f_equal. f_equal. cbn [snd] in L. destruct L as (pre & tag & E & X1 & X2 & X3 & X4).
    { split; [apply start_yes; reflexivity|]. split; [|split]; apply start_not; reflexivity. }
    rewrite E. cbn [app]. f_equal. f_equal; [|f_equal; f_equal].
    + destruct shared; [apply X1; left; apply start_dynamic; reflexivity|apply X2]. intros [H|H]; [apply start_dynamic in H; discriminate|revert H; apply start_not; reflexivity].
    + destruct t; first [apply X3; apply start_yes; reflexivity|apply X4; apply start_not; reflexivity].
  - exfalso. destruct L as [L|(_ & _ & L & _)]; [exact (start_static _ _ _ _ _ L)|]. apply L. apply start_yes. reflexivity.
Qed.
Lemma inside_lemma p c (shared : bool) t : exists e', run (library_dll_h p) (start c t shared true (macro p), []) = Some (e', []).
Proof.
  pose proof (linked_lemma p (start c t shared true (macro p)) [] (start_fresh _ _ _ _ _) (start_version _ _ _ _ _)) as L.
  assert (N : ~ automatic (start c t shared true (macro p)) (macro p)). { intros (_ & H & _). apply H. apply start_yes. cbn [cmake_defines]. rewrite str_eqb_refl. reflexivity. }
  destruct (run (library_dll_h p) (start c t shared true (macro p), [])) as [[e' l']|].
  - destruct L as (_ & _ & L & _). cbn [snd] in L. exists e'. rewrite (L N). reflexivity.
  - exfalso. destruct L as [L|(L & _)]; [exact (start_static _ _ _ _ _ L)|exact (N L)].
Qed.
Lemma other_compilers_lemma p c (shared : bool) t : c <> Msvc -> exists e', run (library_dll_h p) (start c t shared false (macro p), []) = Some (e', []).
Proof.
  intro C. pose proof (linked_lemma p (start c t shared false (macro p)) [] (start_fresh _ _ _ _ _) (start_version _ _ _ _ _)) as L.
  assert (N : ~ automatic (start c t shared false (macro p)) (macro p)). { intros (H & _). revert H. apply start_not. destruct c; [destruct (C eq_refl)|reflexivity|reflexivity]. }
  destruct (run (library_dll_h p) (start c t shared false (macro p), [])) as [[e' l']|].
  - destruct L as (_ & _ & L & _). cbn [snd] in L. exists e'. rewrite (L N). reflexivity.
  - exfalso. destruct L as [L|(L & _)]; [exact (start_static _ _ _ _ _ L)|exact (N L)].
Qed.
Lemma file_partial p (shared : bool) t : t = Release \/ t = Debug -> (if shared then [] else s "lib") ++ module_name p ++ match t with Debug => s "d" | _ => [] end ++ s "-" ++ major p ++ s "." ++ minor p ++ s ".lib" = library_file p shared t.
Proof. unfold library_file, postfix. intros [-> | ->]; rewrite <- ?app_assoc; reflexivity. Qed.
Lemma file_other p (shared : bool) t : t = MinSizeRel \/ t = RelWithDebInfo -> (if shared then [] else s "lib") ++ module_name p ++ match t with Debug => s "d" | _ => [] end ++ s "-" ++ major p ++ s "." ++ minor p ++ s ".lib" <> library_file p shared t.
Proof. unfold library_file, postfix. intros [-> | ->] H; apply app_inv_head in H; apply app_inv_head in H; discriminate H. Qed.
