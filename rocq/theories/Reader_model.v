(** Model of cpp_utils/include/cpp_utils/user_interface/impl/CommandReader.ipp. *)
From Verif Require Export Str StrUtils_model.

Definition quote : ascii := ascii_of_nat 34.
Definition space : ascii := ascii_of_nat 32.

(** [joined] is not empty and its last character is a double quote *)
Definition ends_quoted (t : str) : bool :=
  match rev t with c :: _ => Ascii.eqb c quote | [] => false end.

(** 66-70: the inner [while]; returns [joined] and the strings not read yet *)
Fixpoint join_more (joined : str) (rest : list str) : str * list str :=
  match rest with
  | [] => (joined, [])
  | t :: r => if ends_quoted joined then (joined, rest) else join_more (joined ++ space :: t) r
  end.

(** 76-77: [joined.substr(1, joined.size() - tmp)] for a non-empty [joined]; with
    [joined] a lone quote the length wraps to the maximum of [size_t]: the substring
    is then everything from position 1, the empty string, as here *)
Definition unquote (joined : str) : str :=
  substr joined 1 (length joined - (if ends_quoted joined then 2 else 1)).

(** 54-88 [join_quoted_strings]: the [for] loop, one unit of fuel per iteration *)
Fixpoint join_quoted_loop (fuel : nat) (input : list str) : list str :=
  match fuel with
  | 0 => []
  | S fuel' =>
      match input with
      | [] => []
      | t :: rest =>
          match t with
          | c :: _ =>
              if Ascii.eqb c quote
              then let (joined, rest') := join_more t rest in unquote joined :: join_quoted_loop fuel' rest'
              else t :: join_quoted_loop fuel' rest
          | [] => t :: join_quoted_loop fuel' rest
          end
      end
  end.

(** each iteration reads at least one string: [length input] iterations suffice *)
Definition join_quoted_strings (input : list str) : list str := join_quoted_loop (length input) input.

(** 46-48 [read_next_command]: the arguments of a line *)
Definition read_arguments (line : str) : option (list str) :=
  match split_string (S (length line)) line [space] with
  | Some tokens => Some (join_quoted_strings tokens)
  | None => None
  end.
