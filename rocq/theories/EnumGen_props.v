(** C107 to C110: the generator of enumerations. *)
From Coq Require Import Lia.
From Verif Require Import EnumGen_proofs EnumText_proofs.
Open Scope nat_scope.

(** C107.  The values are the texts between the separators, without their blanks: semicolons if there is one ... *)
Theorem C107_semicolon l : 2 <= List.length l -> Forall (without ";"%char) l -> Forall only_blanks l ->
  parse_values (join (s ";") l) = map unblank l.
Proof. exact (values_semicolon l). Qed.
Print Assumptions C107_semicolon.
(** ... and otherwise commas. *)
Theorem C107_comma l : l <> [] -> Forall (without ";"%char) l -> Forall (without ","%char) l -> Forall only_blanks l ->
  parse_values (join (s ",") l) = map unblank l.
Proof. exact (values_comma l). Qed.
Print Assumptions C107_comma.
(** Whatever the text, no value has a semicolon or a blank. *)
Theorem C107_clean t x : In x (parse_values t) -> without ";"%char x /\ without " "%char x.
Proof. exact (values_clean t x). Qed.
Print Assumptions C107_clean.
Example C107_nonvacuous : parse_values (join (s ";") [s "red "; s " light green"; s "a,b"]) = [s "red"; s "lightgreen"; s "a,b"] /\
  parse_values (join (s ",") [s "red"; s " green"]) = [s "red"; s "green"] /\
  Forall (without ";"%char) [s "red "; s " light green"; s "a,b"] /\ Forall only_blanks [s "red"; s " green"].
Proof.
  split; [vm_compute; reflexivity|]. split; [vm_compute; reflexivity|]. split.
  - repeat constructor; intros H; cbn in H; repeat (destruct H as [H|H]; [discriminate H|]); exact H.
  - repeat constructor; intros c H K; cbn in H; repeat (destruct H as [<-|H]; [first [reflexivity | discriminate K]|]); destruct H.
Qed.

(** C108.  When no argument has a %, the file is the template with each name between % replaced by its text.
    Missing: arguments with a %; see C108_refuted. *)
Theorem C108_partial year argv name values namespaces output_file : plain_arguments year argv name values namespaces output_file ->
  generate_file_text year argv TEMPLATE_TEXT name values namespaces output_file =
  fill (entry (entries year argv name values namespaces output_file)) TEMPLATE_TEXT.
Proof. exact (text_filled year argv name values namespaces output_file). Qed.
Print Assumptions C108_partial.
(** In particular the enumeration, the array of names and the number of values are in it in this form. *)
Theorem C108_sections_partial year argv name values namespaces output_file : plain_arguments year argv name values namespaces output_file -> exists before between,
  generate_file_text year argv TEMPLATE_TEXT name values namespaces output_file =
  before ++
  start_namespace namespaces ++ [newline; newline] ++
  s "enum class " ++ name ++ [newline] ++ s "{" ++ [newline] ++ values_text values ++ [newline] ++ s "};" ++ [newline; newline] ++
  s "const std::array<std::string, " ++ n_values_text values ++ s "> NAMES_" ++ name ++ s " =" ++ [newline] ++ s "{" ++ [newline] ++ quotes_text values ++ [newline] ++ s "};" ++
  between ++
  s "constexpr const unsigned int N_VALUES_" ++ name ++ s " = " ++ n_values_text values ++ s ";" ++ [newline; newline] ++
  end_namespace namespaces ++ [newline].
Proof. exact (text_sections year argv name values namespaces output_file). Qed.
Print Assumptions C108_sections_partial.
(** The texts of the fields: the namespaces are opened in their order and closed in the opposite one, the values are one per line, ... *)
Theorem C108_texts values namespaces :
  start_namespace namespaces = join [newline] (map (fun x => s "namespace " ++ x ++ s " {") namespaces) /\
  end_namespace namespaces = join [newline] (map (fun x => s "} /* namespace " ++ x ++ s " */") (rev namespaces)) /\
  values_text values = join (s "," ++ [newline]) (map (fun x => s "    " ++ x) values) /\
  quotes_text values = join (s "," ++ [newline]) (map (fun x => s "    """ ++ x ++ s """") values) /\
  n_values_text values = dec (N.of_nat (List.length values)).
Proof. unfold start_namespace, end_namespace, values_text, quotes_text. rewrite !py_join_join. repeat split; reflexivity. Qed.
Print Assumptions C108_texts.
(** ... the file is the name at the end of its path, and the command has each argument with a - on a line of its own, the others after it. *)
Theorem C108_file path : name_of_file path (get_file_name_from_path path).
Proof. exact (file_name path). Qed.
Print Assumptions C108_file.
Theorem C108_command argv : get_command_executed argv = s "enumeration_builder.py" ++
  flat_map (fun a => if in_dec ascii_dec "-"%char a then newline :: s " *   " ++ a else s " " ++ get_file_name_from_path a) argv.
Proof. exact (command_text argv). Qed.
Print Assumptions C108_command.
Example C108_file_nonvacuous : map get_file_name_from_path [s "include/my dir\ E.hpp "; s "E.hpp"; s "a/"] = [s "E.hpp"; s "E.hpp"; []] /\
  get_command_executed [s "-e"; s "E"; s "-o"; s "a/b.hpp"] = s "enumeration_builder.py" ++ newline :: s " *   -e E" ++ newline :: s " *   -o b.hpp".
Proof. split; vm_compute; reflexivity. Qed.
(** A name between % in the output file is replaced too: the file a%values%.hpp is not in the text. *)
Theorem C108_refuted : let text := generate_file_text (s "2022") [] TEMPLATE_TEXT (s "E") [s "X"] [s "n"] (s "a%values%.hpp") in
  ~ contains text (s "a%values%.hpp") /\ contains text (s " * @file a    X.hpp") /\
  contains (fill (entry (entries (s "2022") [] (s "E") [s "X"] [s "n"] (s "a%values%.hpp"))) TEMPLATE_TEXT) (s " * @file a%values%.hpp").
Proof.
  cbv zeta. split; [|split].
  - apply sfind_none. vm_compute. reflexivity.
  - apply sfind_contains. eexists. vm_compute. reflexivity.
  - apply sfind_contains. eexists. vm_compute. reflexivity.
Qed.
Print Assumptions C108_refuted.
Example C108_nonvacuous : plain_arguments (s "2022") [s "-e"; s "Color"; s "-v"; s "red;green"] (s "Color") [s "red"; s "green"] [s "eprosima"; s "utils"] (s "include/Color.hpp") /\
  contains (generate_file_text (s "2022") [s "-e"; s "Color"; s "-v"; s "red;green"] TEMPLATE_TEXT (s "Color") [s "red"; s "green"] [s "eprosima"; s "utils"] (s "include/Color.hpp"))
    (s "const std::array<std::string, 2> NAMES_Color =" ++ [newline] ++ s "{" ++ [newline] ++ s "    ""red""," ++ [newline] ++ s "    ""green""" ++ [newline] ++ s "};").
Proof.
  split.
  - unfold plain_arguments. repeat constructor; intros H; cbn in H; repeat (destruct H as [H|H]; [discriminate H|]); exact H.
  - apply sfind_contains. eexists. vm_compute. reflexivity.
Qed.

(** C109.  Given different identifiers, the code declares them in order from 0, and to_string and from_string are inverse to each other.
    Missing: values that are not identifiers; see the refutations. *)
Theorem C109_partial sep l : sep = s ";" \/ sep = s "," -> l <> [] -> Forall (fun x => identifier x = true) l -> NoDup l ->
  exists e, read_code (parse_values (join sep l)) = Some e /\ stands_for l e.
Proof. exact (meaning sep l). Qed.
Print Assumptions C109_partial.
(** A separator after the last value adds a name to the functions that is not in the enumeration. *)
Theorem C109_trailing_refuted : exists e, read_code (parse_values (s "A;B;")) = Some e /\
  constants e = [(s "A", 0%N); (s "B", 1%N)] /\ n_values e = 3 /\ from_string e [] = Ret 2%N /\ string_vector e = [s "A"; s "B"; []].
Proof. eexists. split; [vm_compute; reflexivity|]. repeat split; vm_compute; reflexivity. Qed.
Print Assumptions C109_trailing_refuted.
(** With a number for a value, to_string of a declared enumerator is undefined behaviour. *)
Theorem C109_number_refuted : exists e, read_code (parse_values (s "A = 5; B")) = Some e /\
  constants e = [(s "A", 5%N); (s "B", 6%N)] /\ to_string e 5%N = UB /\ from_string e (s "B") = Ret 1%N.
Proof. eexists. split; [vm_compute; reflexivity|]. repeat split; vm_compute; reflexivity. Qed.
Print Assumptions C109_number_refuted.
(** Both separators: the names do not belong to the enumerators. *)
Theorem C109_mixed_refuted : exists e, read_code (parse_values (s "A,B;C")) = Some e /\
  constants e = [(s "A", 0%N); (s "B", 1%N); (s "C", 2%N)] /\ to_string e 1%N = Ret (s "C") /\ to_string e 2%N = UB.
Proof. eexists. split; [vm_compute; reflexivity|]. repeat split; vm_compute; reflexivity. Qed.
Print Assumptions C109_mixed_refuted.
Example C109_nonvacuous : Forall (fun x => identifier x = true) [s "red"; s "light_green2"] /\ NoDup [s "red"; s "light_green2"] /\
  exists e, read_code (parse_values (s "red,light_green2")) = Some e /\ to_string e 1%N = Ret (s "light_green2").
Proof.
  split; [repeat constructor|]. split.
  - constructor; [intros [H|[]]; discriminate H|]. constructor; [easy|constructor].
  - eexists. split; vm_compute; reflexivity.
Qed.

(** C110.  The command in the comment of the file does not close the comment, unless an argument with a - does ... *)
Theorem C110_comment_partial argv : contains (get_command_executed argv) closing -> exists a, In a argv /\ In "-"%char a /\ contains a closing.
Proof. exact (command_closing argv). Qed.
Print Assumptions C110_comment_partial.
(** ... and the name of the file does not either. *)
Theorem C110_file path : ~ contains (get_file_name_from_path path) closing.
Proof. exact (output_closing path). Qed.
Print Assumptions C110_file.
(** Braces opened are closed. *)
Theorem C110_braces_partial year argv name values namespaces output_file : plain_arguments year argv name values namespaces output_file ->
  no_braces (year :: name :: output_file :: argv ++ values ++ namespaces) ->
  count "{"%char (generate_file_text year argv TEMPLATE_TEXT name values namespaces output_file) =
  count "}"%char (generate_file_text year argv TEMPLATE_TEXT name values namespaces output_file).
Proof. exact (text_braces year argv name values namespaces output_file). Qed.
Print Assumptions C110_braces_partial.
(** An option and its value in the same argument are not shortened. *)
Theorem C110_refuted : contains (get_command_executed [s "--enum"; s "E"; s "--output=gen*/E.hpp"]) closing.
Proof. apply sfind_contains. eexists. vm_compute. reflexivity. Qed.
Print Assumptions C110_refuted.
Example C110_nonvacuous : get_command_executed [s "-e"; s "E"; s "-o"; s "gen*/E.hpp"] = s "enumeration_builder.py" ++ [newline] ++ s " *   -e E" ++ [newline] ++ s " *   -o E.hpp" /\
  no_braces [s "2022"; s "E"; s "gen*/E.hpp"].
Proof.
  split; [vm_compute; reflexivity|].
  repeat constructor; intros H; cbn in H; repeat (destruct H as [H|H]; [discriminate H|]); exact H.
Qed.
