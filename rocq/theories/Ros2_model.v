(** Model of cpp_utils/src/cpp/ros2_mangling.cpp. *)
From Verif Require Export Str Outcome StrUtils_model.

(** ros2_mangling.cpp:25-34 *)
Definition ros_topic_prefix : str := s "rt".
Definition ros_service_requester_prefix : str := s "rq".
Definition ros_service_response_prefix : str := s "rr".
Definition ros_prefixes_ : list str :=
  [ros_topic_prefix; ros_service_requester_prefix; ros_service_response_prefix].
Definition ros2_msgs_format : str := s "/msg/".
Definition ros2_srv_format : str := s "/srv/".

(** [name.rfind(p, 0) == 0]: only position 0 is tried *)
Definition rfind0 (p name : str) : bool := prefixb p name.

(** the replaced string after [utils::replace_all] (C01); one evaluation of its
    loop condition per byte and one more suffice for the replacements made here,
    as the theorems show *)
Definition replaced (t a b : str) : outcome str :=
  match replace_all (S (length t)) t a b with
  | Some (t', _) => Ret t'
  | None => OutOfFuel
  end.

(** [t.substr(pos, a - b)] where [a - b] is computed in [size_t]: when it wraps
    the count exceeds any string length *)
Definition substr_diff (t : str) (pos a b : nat) : str :=
  if a <? b then substr_to_end t pos else substr t pos (a - b).

(** ros2_mangling.cpp:36-45 *)
Definition remove_prefix (name prefix : str) : str :=
  if rfind0 (prefix ++ s "/") name then substr_to_end name (length prefix) else [].

(** ros2_mangling.cpp:47-59 *)
Definition add_prefix (name prefix : str) : str := prefix ++ name.
Definition add_suffix (name suffix : str) : str := name ++ suffix.

(** ros2_mangling.cpp:61-72 *)
Fixpoint get_prefix_loop (prefixes : list str) (topic_name : str) : str :=
  match prefixes with
  | [] => []
  | p :: rest => if rfind0 (p ++ s "/") topic_name then p else get_prefix_loop rest topic_name
  end.
Definition get_ros_prefix_if_exists (topic_name : str) : str := get_prefix_loop ros_prefixes_ topic_name.

(** ros2_mangling.cpp:74-85 *)
Fixpoint remove_prefix_loop (prefixes : list str) (topic_name : str) : str :=
  match prefixes with
  | [] => topic_name
  | p :: rest =>
      if rfind0 (p ++ s "/") topic_name then substr_to_end topic_name (length p)
      else remove_prefix_loop rest topic_name
  end.
Definition remove_ros_prefix_if_exists (topic_name : str) : str := remove_prefix_loop ros_prefixes_ topic_name.

(** ros2_mangling.cpp:87-104 *)
Definition add_ros_topic_prefix (t : str) : str := add_prefix t ros_topic_prefix.
Definition add_ros_service_requester_prefix (t : str) : str := add_prefix t ros_service_requester_prefix.
Definition add_ros_service_response_prefix (t : str) : str := add_prefix t ros_service_response_prefix.

(** ros2_mangling.cpp:111-125 *)
Definition demangle_if_ros_topic (t : str) : str := remove_ros_prefix_if_exists t.
Definition mangle_if_ros_topic (t : str) : str :=
  if rfind0 (s "/") t then add_ros_topic_prefix t else t.

(** ros2_mangling.cpp:127-152.  On the empty string the index [size() - 1] is out
    of range: undefined. *)
Definition demangle_if_ros_type (t : str) : outcome str :=
  match t with
  | [] => UB
  | _ =>
      match nth_error t (length t - 1) with
      | None => UB
      | Some c =>
          if negb (Ascii.eqb c "_") then Ret t
          else
            match sfind (s "dds_::") t with
            | None => Ret t
            | Some pos =>
                obind (replaced (substr t 0 pos) (s "::") (s "/")) (fun ns =>
                let start := pos + length (s "dds_::") in
                Ret (ns ++ substr_diff t start (length t - 1) start))
            end
      end
  end.

(** ros2_mangling.cpp:154-179 *)
Definition mangle_if_ros_type (t : str) : outcome str :=
  match sfind ros2_msgs_format t with
  | None => Ret t
  | Some pos =>
      let k := pos + length ros2_msgs_format in
      let type_name := substr t k (length t - pos - length ros2_msgs_format) in
      if length type_name =? 0 then Ret t
      else obind (replaced (substr t 0 k) (s "/") (s "::")) (fun ns =>
           Ret (ns ++ s "dds_::" ++ type_name ++ s "_"))
  end.

(** ros2_mangling.cpp:181-185 *)
Definition demangle_ros_topic_prefix_from_topic (t : str) : str := remove_prefix t ros_topic_prefix.

(** ros2_mangling.cpp:187-217 *)
Definition demangle_service_topic (prefix topic_name suffix : str) : str :=
  let service_name := remove_prefix topic_name prefix in
  if str_eqb [] service_name then []
  else
    match srfind suffix service_name with
    | Some pos =>
        if negb (length service_name - pos - length suffix =? 0) then []
        else substr service_name 0 pos
    | None => []
    end.

(** ros2_mangling.cpp:219-234 *)
Definition mangle_ros_service_in_topic (prefix topic_name suffix : str) : str :=
  match srfind (s "/") topic_name with
  | Some 0 => add_suffix (add_prefix topic_name prefix) suffix
  | _ => []
  end.

(** ros2_mangling.cpp:247-269 *)
Definition demangle_ros_service_request_prefix_from_topic (t : str) : str :=
  demangle_service_topic ros_service_requester_prefix t (s "Request").
Definition mangle_ros_service_request_prefix_in_topic (t : str) : str :=
  mangle_ros_service_in_topic ros_service_requester_prefix t (s "Request").
Definition demangle_ros_service_reply_prefix_from_topic (t : str) : str :=
  demangle_service_topic ros_service_response_prefix t (s "Reply").
Definition mangle_ros_service_reply_prefix_in_topic (t : str) : str :=
  mangle_ros_service_in_topic ros_service_response_prefix t (s "Reply").

(** ros2_mangling.cpp:236-245 *)
Definition demangle_ros_service_prefix_from_topic (t : str) : str :=
  let d := demangle_ros_service_reply_prefix_from_topic t in
  if negb (str_eqb [] d) then d else demangle_ros_service_request_prefix_from_topic t.

(** ros2_mangling.cpp:287-303: the loop over the suffixes; result: the final value
    of [suffix_position] *)
Fixpoint suffix_loop (suffixes : list str) (t : str) (suffix_position : option nat) : option nat :=
  match suffixes with
  | [] => suffix_position
  | x :: rest =>
      match srfind x t with
      | Some pos =>
          if negb (length t - pos - length x =? 0) then suffix_loop rest t (Some pos) (* continue *)
          else Some pos (* break *)
      | None => suffix_loop rest t None
      end
  end.

(** ros2_mangling.cpp:271-317 *)
Definition demangle_service_type_only (t : str) : outcome str :=
  match sfind (s "dds_::") t with
  | None => Ret []
  | Some ns_pos =>
      match suffix_loop [s "_Response_"; s "_Request_"] t (Some 0) with
      | None => Ret []
      | Some suffix_position =>
          obind (replaced (substr t 0 ns_pos) (s "::") (s "/")) (fun ns =>
          let start := ns_pos + length (s "dds_::") in
          Ret (ns ++ substr_diff t start suffix_position start))
      end
  end.

(** ros2_mangling.cpp:319-353 *)
Definition mangle_service_type_only (t : str) : outcome str :=
  match sfind ros2_srv_format t with
  | None => Ret []
  | Some pos =>
      let k := pos + length ros2_srv_format in
      let d := (substr t 0 k ++ s "dds_::") ++ substr t k (length t - pos - length ros2_srv_format) in
      match sfind (s "rq/") t, sfind (s "rr/") t with
      | Some 0, _ => replaced (d ++ s "_Request_") (s "/") (s "::")
      | _, Some 0 => replaced (d ++ s "_Response_") (s "/") (s "::")
      | _, _ => Ret []
      end
  end.
