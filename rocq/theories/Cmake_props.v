(** C141: the version file.  C142: the labels of tests. *)
From Verif Require Import Cmake_model Cmake_spec Cmake_proofs.

(** if the file has each of the three keys once, with a number after it, and no semicolon, the numbers are those, and so is the version
    unless the caller has set one *)
Theorem C141_partial : forall t before x y z, ~ In ";"%char t -> says t (s "VERSION_MAJOR ") x -> says t (s "VERSION_MINOR ") y -> says t (s "VERSION_PATCH ") z ->
  exists v, read_version (Some t) before = Some v /\ v_major v = x /\ v_minor v = y /\ v_patch v = z /\
    (fst before = None -> v_version v = dotted x y z).
Proof. exact version_lemma. Qed.
Print Assumptions C141_partial.

(** the documented file *)
Theorem C141_documented : forall x y z, Forall digit x -> Forall digit y -> Forall digit z ->
  read_version (Some (version_file x y z)) (None, None) = Some {| v_major := x; v_minor := y; v_patch := z; v_version := dotted x y z; v_string := s "v" ++ dotted x y z |}.
Proof. exact file_lemma. Qed.
Print Assumptions C141_documented.
(** the file of the repository *)
Example C141_nonvacuous : Forall digit (s "1") /\ Forall digit (s "5") /\
  version_file (s "1") (s "5") (s "1") = s "VERSION_MAJOR 1" ++ [ascii_of_nat 10] ++ s "VERSION_MINOR 5" ++ [ascii_of_nat 10] ++ s "VERSION_PATCH 1" ++ [ascii_of_nat 10] /\
  option_map v_version (read_version (Some (version_file (s "1") (s "5") (s "1"))) (None, None)) = Some (s "1.5.1").
Proof. repeat split; repeat constructor; cbn; lia. Qed.
(** in any order, with other text *)
Example C141_partial_nonvacuous : option_map v_version (read_version (Some (s "# v2 VERSION_PATCH 7 VERSION_MAJOR 10rc1,VERSION_MINOR 0")) (None, None)) = Some (s "10.0.7").
Proof. reflexivity. Qed.

(** the string is documented as x.y.z, and has a v *)
Theorem C141_string_refuted : ~ forall x y z v, Forall digit x -> Forall digit y -> Forall digit z -> read_version (Some (version_file x y z)) (None, None) = Some v ->
  v_string v = dotted x y z.
Proof. intro H. assert (D : forall c, c = "1"%char -> Forall digit [c]) by (intros c ->; repeat constructor; cbn; lia).
  specialize (H _ _ _ _ (D _ eq_refl) (D _ eq_refl) (D _ eq_refl) eq_refl). discriminate. Qed.
Print Assumptions C141_string_refuted.

(** with the version of one file defined, the next file gives its numbers but not its version *)
Theorem C141_second_refuted : ~ forall x y z first v, Forall digit x -> Forall digit y -> Forall digit z ->
  read_version (Some (version_file x y z)) (Some (v_version first), Some (v_string first)) = Some v -> v_version v = dotted x y z.
Proof.
  intro H. assert (D : forall c, c = "2"%char -> Forall digit [c]) by (intros c ->; repeat constructor; cbn; lia).
  specialize (H _ _ _ {| v_major := s "1"; v_minor := s "5"; v_patch := s "1"; v_version := s "1.5.1"; v_string := s "v1.5.1" |} _ (D _ eq_refl) (D _ eq_refl) (D _ eq_refl) eq_refl). discriminate.
Qed.
Print Assumptions C141_second_refuted.

(** a line of its own is not enough: a key that ends in the same way and comes before takes its place *)
Theorem C141_line_refuted : ~ forall t x y z v, Forall digit x -> Forall digit y -> Forall digit z ->
  read_version (Some (t ++ [ascii_of_nat 10] ++ version_file x y z)) (None, None) = Some v -> ~ (exists a b, t = a ++ [ascii_of_nat 10] ++ b) -> prefixb (s "VERSION_") t = false -> v_major v = x.
Proof.
  intro H. assert (D : forall c, c = "2"%char -> Forall digit [c]) by (intros c ->; repeat constructor; cbn; lia).
  specialize (H (s "MIN_VERSION_MAJOR 9") _ _ _ _ (D _ eq_refl) (D _ eq_refl) (D _ eq_refl) eq_refl). 
  assert (E : v_major {| v_major := s "9"; v_minor := s "2"; v_patch := s "2"; v_version := s "9.2.2"; v_string := s "v9.2.2" |} = s "2"); [|discriminate]. apply H; [|reflexivity].
  intros (a & b & E). assert (I : In (ascii_of_nat 10) (s "MIN_VERSION_MAJOR 9")) by (rewrite E; apply in_or_app; right; left; reflexivity).
  cbn in I. repeat (destruct I as [I|I]; [discriminate|]). exact I.
Qed.
Print Assumptions C141_line_refuted.

(** a file without a key is no error *)
Theorem C141_missing_refuted : ~ forall t v, read_version (Some t) (None, None) = Some v -> exists pre post, t = pre ++ s "VERSION_MAJOR " ++ post.
Proof.
  intro H. specialize (H (s "VERSION_MINOR 5") _ eq_refl) as (pre & post & E).
  do 15 (destruct pre as [|? pre]; [discriminate|injection E as _ E]). destruct pre; discriminate.
Qed.
Print Assumptions C141_missing_refuted.

(** a semicolon disappears: here the 1 is followed by a semicolon *)
Theorem C141_semicolon_refuted : ~ forall t x v, says t (s "VERSION_MAJOR ") x -> read_version (Some t) (None, None) = Some v -> v_major v = x.
Proof.
  intro H. pose proof (H (s "VERSION_MAJOR 1;5") (s "1")) as E. assert (X : s "15" = s "1"); [|discriminate].
  apply (E {| v_major := s "15"; v_minor := []; v_patch := []; v_version := s "15.."; v_string := s "v15.." |}); [|reflexivity].
  exists [], (s ";5"). split; [reflexivity|]. split; [|split].
  - intros pre post F. destruct pre as [|c pre]; [reflexivity|]. exfalso. injection F as _ F.
    do 16 (destruct pre as [|? pre]; [discriminate|injection F as _ F]). destruct pre; discriminate.
  - repeat constructor; cbn; lia.
  - intros c r [= <- _]. unfold digit. cbn. lia.
Qed.
Print Assumptions C141_semicolon_refuted.

(** C142: with the files there, labels that are not empty and have no special characters, and test names without brackets or backslashes,
    the labels of a test are those it had and then those of the files that list it, in order *)
Theorem C142_partial : forall vars test files out cur,
  Forall (fun x => plain (snd x)) files -> Forall (fun x => Forall tame (fst x)) files -> test <> [] -> vars test = None ->
  chosen test files out -> Forall plain cur ->
  set_test_labels vars (subdirectory (as_calls files) no_labels) test (join cur) = join (cur ++ out).
Proof. exact labels_lemma. Qed.
Print Assumptions C142_partial.
Example C142_nonvacuous :
  chosen (s "A.b") [([s "A.b"; s "A.c"], s "slow"); ([s "A.c"], s "xfail"); ([s "B;x"; s "A.b"], s "net")] [s "slow"; s "net"] /\
  set_test_labels (fun _ => None) (subdirectory (as_calls [([s "A.b"; s "A.c"], s "slow"); ([s "A.c"], s "xfail"); ([s "B;x"; s "A.b"], s "net")]) no_labels) (s "A.b") (s "unit")
    = s "unit;slow;net".
Proof.
  split; [|reflexivity]. apply chosen_in; [left; reflexivity|]. apply chosen_out; [intros [H|[]]; discriminate|]. apply chosen_in; [right; left; reflexivity|]. apply chosen_nil.
Qed.

(** a file that is not there takes away the labels of the files after it *)
Theorem C142_missing_refuted : ~ forall calls test lines label, In (Some lines, label) calls -> In test lines -> plain label -> tame test -> test <> [] ->
  In label (arguments (set_test_labels (fun _ => None) (subdirectory calls no_labels) test [])).
Proof.
  intro H. specialize (H [(None, s "a"); (Some [s "T"], s "b")] (s "T") [s "T"] (s "b") (or_intror (or_introl eq_refl)) (or_introl eq_refl)). cbn in H.
  apply H; unfold plain, tame; cbn; repeat split; try discriminate; intros [E|E]; (discriminate || exact E).
Qed.
Print Assumptions C142_missing_refuted.

(** two directories of a project: the labels of the second take the place of those of the first *)
Theorem C142_directories_refuted : ~ forall files1 files2 test lines label, Forall (fun x => plain (snd x)) (files1 ++ files2) -> In (lines, label) (files1 ++ files2) -> In test lines -> tame test -> test <> [] ->
  In label (arguments (set_test_labels (fun _ => None) (subdirectory (as_calls files2) (subdirectory (as_calls files1) no_labels)) test [])).
Proof.
  intro H. specialize (H [([s "T"], s "a")] [([s "U"], s "b")] (s "T") [s "T"] (s "a")). cbn in H. apply H.
  - repeat constructor; unfold plain, tame; cbn; repeat split; try discriminate; intros [E|E]; (discriminate || exact E).
  - left. reflexivity.
  - left. reflexivity.
  - unfold tame; cbn; repeat split; intros [E|E]; (discriminate || exact E).
  - discriminate.
Qed.
Print Assumptions C142_directories_refuted.

(** labels with a semicolon lose what comes after it *)
Theorem C142_semicolon_refuted : ~ forall files test lines label x, In (lines, label) files -> In test lines -> tame label -> tame test -> test <> [] -> In x (arguments label) ->
  In x (arguments (set_test_labels (fun _ => None) (subdirectory (as_calls files) no_labels) test [])).
Proof.
  intro H. specialize (H [([s "T"], s "a;b")] (s "T") [s "T"] (s "a;b") (s "b") (or_introl eq_refl) (or_introl eq_refl)). cbn in H.
  destruct H as [E|[]]; [| |discriminate|right; left; reflexivity|discriminate]; unfold tame; cbn; repeat split; intuition discriminate.
Qed.
Print Assumptions C142_semicolon_refuted.

(** an empty label moves the labels after it, so that a test gets the label of a file that does not list it *)
Theorem C142_empty_refuted : ~ forall files test label, Forall (fun x => tame (snd x)) files -> tame test -> test <> [] ->
  In label (arguments (set_test_labels (fun _ => None) (subdirectory (as_calls files) no_labels) test [])) -> exists lines, In (lines, label) files /\ In test lines.
Proof.
  intro H. specialize (H [([s "X"], s "a"); ([s "T"], []); ([s "U"], s "b")] (s "T") (s "b")). destruct H as (lines & I & J).
  - repeat constructor; unfold tame; cbn; repeat split; intuition discriminate.
  - unfold tame; cbn; repeat split; intuition discriminate.
  - discriminate.
  - left. reflexivity.
  - cbn in I. destruct I as [[= <- _]|[[= <- _]|[[= <-]|[]]]]; cbn in J; intuition discriminate.
Qed.
Print Assumptions C142_empty_refuted.

(** a variable with the name of the test takes its place *)
Theorem C142_variable_refuted : ~ forall vars files test lines label, Forall (fun x => plain (snd x)) files -> In (lines, label) files -> In test lines -> tame test -> test <> [] ->
  In label (arguments (set_test_labels vars (subdirectory (as_calls files) no_labels) test [])).
Proof.
  intro H. specialize (H (fun x => if str_eqb x (s "T") then Some (s "1") else None) [([s "T"], s "a")] (s "T") [s "T"] (s "a")). cbn in H. apply H.
  - repeat constructor; unfold plain, tame; cbn; repeat split; try discriminate; intros [E|E]; (discriminate || exact E).
  - left. reflexivity.
  - left. reflexivity.
  - unfold tame; cbn; repeat split; intros [E|E]; (discriminate || exact E).
  - discriminate.
Qed.
Print Assumptions C142_variable_refuted.
