(** Vocabulary of C107 to C110. *)
From Verif Require Export EnumGen_model Str_spec.

Definition without (c : ascii) (t : str) : Prop := ~ In c t.

(** the only white space in [t] are blanks *)
Definition only_blanks (t : str) : Prop := forall c, In c t -> is_space c = true -> c = " "%char.
(** [t] without its blanks *)
Definition unblank (t : str) : str := filter (fun c => negb (Ascii.eqb c " "%char)) t.

(** [t] with each name between two % replaced by the text [f] gives for it *)
Fixpoint alternate (f : str -> str) (hole : bool) (pieces : list str) : str :=
  match pieces with
  | [] => []
  | p :: rest => (if hole then f p else p) ++ alternate f (negb hole) rest
  end.
Definition fill (f : str -> str) (t : str) : str := alternate f false (py_split "%"%char t).

(** the text for each name of the template *)
Definition entries (year : str) (argv : list str) (name : str) (values namespaces : list str) (output_file : str) : list (str * str) :=
  [(s "year", year); (s "output_file", get_file_name_from_path output_file); (s "command", get_command_executed argv);
   (s "start_namespace", start_namespace namespaces); (s "end_namespace", end_namespace namespaces); (s "enum_name", name);
   (s "values", values_text values); (s "quotes_values", quotes_text values); (s "n_values", n_values_text values)].
Definition entry (l : list (str * str)) (n : str) : str :=
  match find (fun x => str_eqb (fst x) n) l with Some x => snd x | None => s "%" ++ n ++ s "%" end.

(** nothing given to the generator has a % *)
Definition plain_arguments (year : str) (argv : list str) (name : str) (values namespaces : list str) (output_file : str) : Prop :=
  Forall (without "%"%char) (year :: name :: output_file :: argv ++ values ++ namespaces).

(** the enumeration that the names given stand for: to_string and from_string are inverse to each other and
    the enumerators are numbered from 0 *)
Definition stands_for (l : list str) (e : enumeration) : Prop :=
  constants e = combine l (map N.of_nat (seq 0 (List.length l))) /\ n_values e = List.length l /\ string_vector e = l /\
  (forall i x, nth_error l i = Some x -> to_string e (N.of_nat i) = Ret x /\ from_string e x = Ret (N.of_nat i)) /\
  (forall x, ~ In x l -> from_string e x = Throw InvalidArgument).

Definition closing : str := s "*/".

(** none of the texts has a brace *)
Definition no_braces (l : list str) : Prop := Forall (fun t => without "{"%char t /\ without "}"%char t) l.

(** [f] is the name of the file [path]: what follows the last separator, without white space around it *)
Definition separator (c : ascii) : Prop := c = "/"%char \/ c = "\"%char.
Definition white (t : str) : Prop := forall c, In c t -> In c (map ascii_of_nat [9; 10; 11; 12; 13; 28; 29; 30; 31; 32]).
Definition name_of_file (path f : str) : Prop := exists dir l r,
  path = dir ++ l ++ f ++ r /\ (dir = [] \/ exists d c, dir = d ++ [c] /\ separator c) /\ (forall c, In c (l ++ f ++ r) -> ~ separator c) /\ white l /\ white r /\
  (forall c t, f = c :: t \/ f = t ++ [c] -> ~ white [c]).
