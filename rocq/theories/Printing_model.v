(** Model of cpp_utils/src/cpp/Formatter.cpp, of [container_to_stream] in
    cpp_utils/include/cpp_utils/impl/utils.ipp, of cpp_utils/src/cpp/qos/qos_utils.cpp and of
    cpp_utils/src/cpp/file/file_utils.cpp.
    The text an element streams to is given: elements are their texts. *)
From Coq Require Export String List Bool Arith NArith.
From Verif Require Export Str Outcome StrUtils_model.

(** ** Formatter *)

(** Formatter.ipp:26-32: [ss_ << val] *)
Definition fmt_stream (ss : str) (val : str) : str := ss ++ val.

(** conversion of a char const* to a string: up to the first NUL *)
Fixpoint c_str (t : str) : str :=
  match t with
  | [] => []
  | x :: t' => if Ascii.eqb x zero then [] else x :: c_str t'
  end.

(** Formatter.cpp:30-33 [to_string] *)
Definition fmt_to_string (ss : str) : str := c_str ss.

(** ** Containers *)

(** utils.ipp:53-57: the loop for indices from [i], [n] left *)
Fixpoint print_loop (os : str) (l : list str) (sep : str) (i n : nat) : str :=
  match n with
  | 0 => os
  | S n' => print_loop (os ++ nth i l [] ++ sep) l sep (S i) n'
  end.

(** utils.ipp:43-67 *)
Definition container_to_stream (os : str) (l : list str) (sep : str) : str :=
  let os := os ++ s "{" in
  let size := length l in
  let os := print_loop os l sep 0 (size - 1) in
  let os := if 0 <? size then os ++ nth (size - 1) l [] else os in
  os ++ s "}".

(** ** QoS policies *)

(** qos_utils.cpp:30-111: the names, by identifier.  The order of the identifiers is that of
    the enumeration QosPolicyId_t of Fast DDS, which is not in the repository. *)
Definition qos_names : list str := map s [
  "Invalid"; "User data"; "Durability"; "Presentation"; "Deadline"; "Latency budget"; "Ownership";
  "Ownership strength"; "Liveliness"; "Time-based filter"; "Partition"; "Reliability";
  "Destination order"; "History"; "Resource limits"; "Entity factory"; "Writer data lifecycle";
  "Reader data lifecycle"; "Topic data"; "Group data"; "Transport priority"; "Lifespan";
  "Durability service"; "Data representation"; "Type consistency enforcement";
  "Disable positive acks"; "Participant resource limits"; "Property policy"; "Publish mode";
  "Reader resource limits"; "RTPS endpoint"; "RTPS reliable reader"; "RTPS reliable writer";
  "Transport config"; "Type consistency"; "Wire protocol config"; "Writer resource limits"]%string.

Definition qos_policy_id_to_string (id : nat) : str := nth id qos_names (s "Invalid").

(** qos_utils.cpp:124-142: the loop; the mask is a bitset, bit [id] being [nth id mask false] *)
Fixpoint mask_loop (mask : list bool) (acc : str) (first : bool) (id n : nat) : str :=
  match n with
  | 0 => acc
  | S n' =>
    if nth id mask false then
      mask_loop mask ((if first then acc else acc ++ s ", ") ++ qos_policy_id_to_string id) false (S id) n'
    else mask_loop mask acc first (S id) n'
  end.

(** qos_utils.cpp:113-145; NEXT_QOS_POLICY_ID is the number of names *)
Definition mask_to_string (mask : list bool) : str :=
  if negb (existsb (fun b => b) mask) then qos_policy_id_to_string 0
  else mask_loop mask [] true 0 (length qos_names).

(** ** Files: a file is its content, or cannot be opened *)

(** std::getline: [None] when nothing is left *)
Fixpoint line_end (t : str) : str * str :=
  match t with
  | [] => ([], [])
  | x :: t' => if Ascii.eqb x newline then ([], t') else let (a, b) := line_end t' in (x :: a, b)
  end.
Definition getline (t : str) : option (str * str) :=
  match t with [] => None | _ => Some (line_end t) end.

(** file_utils.cpp:61-72: the loop *)
Fixpoint lines_loop (fuel : nat) (strip_chars strip_empty : bool) (rest : str) (result : list str) : outcome (list str) :=
  match fuel with
  | 0 => OutOfFuel
  | S fuel' =>
    match getline rest with
    | None => Ret result
    | Some (line, rest') =>
      let stripped := if strip_chars then option_map fst (strip_str_default (S (length line)) line) else Some line in
      match stripped with
      | None => OutOfFuel
      | Some line =>
        lines_loop fuel' strip_chars strip_empty rest'
          (if strip_empty && match line with [] => true | _ => false end then result else result ++ [line])
      end
    end
  end.

(** file_utils.cpp:44-75 *)
Definition file_to_strings (file : option str) (strip_chars strip_empty : bool) : outcome (list str) :=
  match file with
  | None => Throw PreconditionNotMet
  | Some content => lines_loop (S (length content)) strip_chars strip_empty content []
  end.

(** file_utils.cpp:29-42 *)
Definition file_to_string (file : option str) (strip_chars : bool) : outcome str :=
  obind (file_to_strings file strip_chars false) (fun strings =>
  Ret (fold_left (fun result st => result ++ (st ++ [newline])) strings [])).
