(** Properties C14, C15, C16, C17. *)
From Verif Require Import Str Outcome Ros2_model Ros2_spec Ros2_proofs.

(** *** C14 topics *)

Theorem C14_topic_round_trip : forall t,
  starts_with t (s "/") -> demangle_if_ros_topic (mangle_if_ros_topic t) = t.
Proof. exact topic_round_trip. Qed.
Print Assumptions C14_topic_round_trip.

Theorem C14_topic_mangled : forall t, starts_with t (s "/") -> mangle_if_ros_topic t = s "rt" ++ t.
Proof. exact topic_mangled. Qed.
Print Assumptions C14_topic_mangled.

Theorem C14_mangled_round_trip : forall v,
  mangle_if_ros_topic (demangle_if_ros_topic (s "rt/" ++ v)) = s "rt/" ++ v.
Proof. exact topic_mangle_demangle. Qed.
Print Assumptions C14_mangled_round_trip.

Theorem C14_all_prefixes_removed : forall p v, In p [s "rt"; s "rq"; s "rr"] ->
  demangle_if_ros_topic (p ++ s "/" ++ v) = s "/" ++ v /\ get_ros_prefix_if_exists (p ++ s "/" ++ v) = p.
Proof. exact topic_demangled_all. Qed.
Print Assumptions C14_all_prefixes_removed.

Theorem C14_other_names_unchanged : forall t,
  (~ starts_with t (s "/") -> mangle_if_ros_topic t = t) /\
  ((forall p, In p [s "rt"; s "rq"; s "rr"] -> ~ starts_with t (p ++ s "/")) ->
   demangle_if_ros_topic t = t /\ get_ros_prefix_if_exists t = []).
Proof. exact topic_not_ros. Qed.
Print Assumptions C14_other_names_unchanged.

(** remove_prefix undoes add_prefix on names beginning with '/', and returns the
    empty string on names without the prefix *)
Theorem C14_remove_prefix : forall name prefix r,
  remove_prefix name prefix = r <->
  (name = prefix ++ r /\ starts_with r (s "/")) \/ (~ starts_with name (prefix ++ s "/") /\ r = []).
Proof. exact remove_prefix_spec. Qed.
Print Assumptions C14_remove_prefix.

Example C14_nonvacuous :
  starts_with (s "/rt/chatter") (s "/") /\
  mangle_if_ros_topic (s "/rt/chatter") = s "rt/rt/chatter" /\
  demangle_if_ros_topic (s "rt/rt/chatter") = s "/rt/chatter" /\
  demangle_if_ros_topic (s "rtx/chatter") = s "rtx/chatter" /\
  remove_prefix (s "rt/chatter") (s "rt") = s "/chatter".
Proof. split; [exists (s "rt/chatter"); reflexivity|repeat split]. Qed.

(** *** C15 message types *)

(** the mangled form *)
Theorem C15_mangled_form : forall t parts T,
  leftmost t (s "/msg/") (join (s "/") parts) T -> T <> [] -> fresh "/" parts ->
  mangle_if_ros_type t = Ret (join (s "::") parts ++ s "::msg::dds_::" ++ T ++ s "_").
Proof. exact mangle_type_parts. Qed.
Print Assumptions C15_mangled_form.

Theorem C15_demangled_form : forall t parts T,
  leftmost t (s "dds_::") (join (s "::") parts) (T ++ s "_") -> fresh ":" parts ->
  demangle_if_ros_type t = Ret (join (s "/") parts ++ T).
Proof. exact demangle_type_parts. Qed.
Print Assumptions C15_demangled_form.

Example C15_forms_nonvacuous :
  leftmost (s "std_msgs/msg/String") (s "/msg/") (join (s "/") [s "std_msgs"]) (s "String") /\
  leftmost (s "std_msgs::msg::dds_::String_") (s "dds_::") (join (s "::") [s "std_msgs"; s "msg"; []])
           (s "String" ++ s "_") /\
  mangle_if_ros_type (s "std_msgs/msg/String") = Ret (s "std_msgs::msg::dds_::String_") /\
  demangle_if_ros_type (s "std_msgs::msg::dds_::String_") = Ret (s "std_msgs/msg/String").
Proof.
  split; [|split; [|split; reflexivity]].
  - apply (sfind_leftmost (s "/msg/") (s "std_msgs") (s "String")). reflexivity.
  - apply (sfind_leftmost (s "dds_::") (s "std_msgs::msg::") (s "String_")). reflexivity.
Qed.

(** Partial: the round trip, for packages without ':' none of whose segments ends
    in "dds_"; the type name is any non-empty string. *)
Theorem C15_round_trip_partial : forall t pkg T,
  leftmost t (s "/msg/") pkg T -> T <> [] -> ~ In ":"%char pkg -> ~ contains (pkg ++ s "/") (s "dds_/") ->
  exists d, mangle_if_ros_type t = Ret d /\ demangle_if_ros_type d = Ret t.
Proof. exact type_round_trip. Qed.
Print Assumptions C15_round_trip_partial.

Example C15_round_trip_partial_nonvacuous :
  leftmost (s "my_pkg/sub/msg/Type") (s "/msg/") (s "my_pkg/sub") (s "Type") /\
  ~ In ":"%char (s "my_pkg/sub") /\ ~ contains (s "my_pkg/sub" ++ s "/") (s "dds_/").
Proof.
  split; [apply (sfind_leftmost (s "/msg/") (s "my_pkg/sub") (s "Type")); reflexivity|].
  split; [cbn; intuition discriminate|]. apply Str_proofs.sfind_none. reflexivity.
Qed.

(** the inverse direction, on mangled names *)
Theorem C15_mangled_round_trip : forall t parts T,
  leftmost t (s "dds_::") (join (s "::") (parts ++ [s "msg"; []])) (T ++ s "_") ->
  parts <> [] -> fresh ":" parts -> fresh "/" parts -> T <> [] ->
  leftmost (join (s "/") parts ++ s "/msg/" ++ T) (s "/msg/") (join (s "/") parts) T ->
  exists r, demangle_if_ros_type t = Ret r /\ r = join (s "/") parts ++ s "/msg/" ++ T /\
            mangle_if_ros_type r = Ret t.
Proof. exact type_round_trip_back. Qed.
Print Assumptions C15_mangled_round_trip.

Example C15_mangled_round_trip_nonvacuous :
  leftmost (s "std_msgs::msg::dds_::String_") (s "dds_::") (join (s "::") ([s "std_msgs"] ++ [s "msg"; []]))
           (s "String" ++ s "_") /\
  leftmost (join (s "/") [s "std_msgs"] ++ s "/msg/" ++ s "String") (s "/msg/") (join (s "/") [s "std_msgs"]) (s "String").
Proof.
  split.
  - apply (sfind_leftmost (s "dds_::") (s "std_msgs::msg::") (s "String_")). reflexivity.
  - apply (sfind_leftmost (s "/msg/") (s "std_msgs") (s "String")). reflexivity.
Qed.

(** The unrestricted round trip fails. *)
Theorem C15_round_trip_refuted : exists t d,
  t = s "dds_/msg/Type" /\ mangle_if_ros_type t = Ret d /\ demangle_if_ros_type d = Ret (s "msg::dds_::Type").
Proof. exact type_round_trip_refuted_lemma. Qed.
Print Assumptions C15_round_trip_refuted.

Theorem C15_other_types_not_mangled : forall t,
  ~ contains t (s "/msg/") \/ (exists u, leftmost t (s "/msg/") u []) -> mangle_if_ros_type t = Ret t.
Proof. exact mangle_type_other. Qed.
Print Assumptions C15_other_types_not_mangled.

Theorem C15_other_types_not_demangled : forall t, t <> [] ->
  ~ ends_with t (s "_") \/ ~ contains t (s "dds_::") -> demangle_if_ros_type t = Ret t.
Proof. exact demangle_type_other. Qed.
Print Assumptions C15_other_types_not_demangled.

Example C15_other_types_nonvacuous :
  ~ contains (s "HelloWorld") (s "/msg/") /\ ~ contains (s "HelloWorld") (s "dds_::").
Proof. split; apply Str_proofs.sfind_none; reflexivity. Qed.

(** The empty type name is read out of bounds. *)
Theorem C15_no_undefined_behaviour_refuted : exists t, demangle_if_ros_type t = UB.
Proof. exact (ex_intro _ [] eq_refl). Qed.
Print Assumptions C15_no_undefined_behaviour_refuted.

(** No other one is, and every other call returns. *)
Theorem C15_defined : forall t, (demangle_if_ros_type t = UB <-> t = []) /\ (t <> [] -> exists r, demangle_if_ros_type t = Ret r) /\ (exists r, mangle_if_ros_type t = Ret r).
Proof. exact types_total. Qed.
Print Assumptions C15_defined.

(** *** C16 service topics *)

(** What a service topic is demangled to: exactly the names it was built from. *)
Theorem C16_request_demangled : forall t n, n <> [] ->
  (demangle_ros_service_request_prefix_from_topic t = n <-> t = s "rq" ++ n ++ s "Request" /\ starts_with n (s "/")).
Proof. exact request_demangle. Qed.
Print Assumptions C16_request_demangled.

Theorem C16_reply_demangled : forall t n, n <> [] ->
  (demangle_ros_service_reply_prefix_from_topic t = n <-> t = s "rr" ++ n ++ s "Reply" /\ starts_with n (s "/")).
Proof. exact reply_demangle. Qed.
Print Assumptions C16_reply_demangled.

Theorem C16_service_demangled : forall t n, n <> [] ->
  (demangle_ros_service_prefix_from_topic t = n <->
   (t = s "rq" ++ n ++ s "Request" \/ t = s "rr" ++ n ++ s "Reply") /\ starts_with n (s "/")).
Proof. exact service_demangle. Qed.
Print Assumptions C16_service_demangled.

Example C16_demangled_nonvacuous :
  demangle_ros_service_prefix_from_topic (s "rq/ns/RequestRequest") = s "/ns/Request" /\
  demangle_ros_service_reply_prefix_from_topic (s "rq/ns/addRequest") = [].
Proof. split; reflexivity. Qed.

(** Partial: mangling works for names with a single '/'. *)
Theorem C16_service_mangled_partial : forall n, starts_with n (s "/") ->
  (exists v, n = s "/" ++ v /\ ~ In "/"%char v) ->
  mangle_ros_service_request_prefix_in_topic n = s "rq" ++ n ++ s "Request" /\
  mangle_ros_service_reply_prefix_in_topic n = s "rr" ++ n ++ s "Reply".
Proof. exact service_mangle_nested. Qed.
Print Assumptions C16_service_mangled_partial.

Example C16_service_mangled_partial_nonvacuous :
  starts_with (s "/add") (s "/") /\ (exists v, s "/add" = s "/" ++ v /\ ~ In "/"%char v).
Proof. split; exists (s "add"); [reflexivity|]. split; [reflexivity|cbn; intuition discriminate]. Qed.

(** Every service in a namespace is rejected with the empty string. *)
Theorem C16_nested_service_refuted : forall a b,
  mangle_ros_service_request_prefix_in_topic (s "/" ++ a ++ s "/" ++ b) = [] /\
  mangle_ros_service_reply_prefix_in_topic (s "/" ++ a ++ s "/" ++ b) = [].
Proof. exact service_mangle_rejects. Qed.
Print Assumptions C16_nested_service_refuted.

(** *** C17 service types *)

Theorem C17_service_type_demangled : forall t parts T suffix,
  leftmost t (s "dds_::") (join (s "::") parts) (T ++ suffix) -> fresh ":" parts ->
  suffix = s "_Request_" \/ suffix = s "_Response_" ->
  demangle_service_type_only t = Ret (join (s "/") parts ++ T).
Proof. exact demangle_service_parts. Qed.
Print Assumptions C17_service_type_demangled.

Example C17_service_type_demangled_nonvacuous :
  leftmost (s "pkg::srv::dds_::Add_Request_") (s "dds_::") (join (s "::") [s "pkg"; s "srv"; []])
           (s "Add" ++ s "_Request_") /\
  demangle_service_type_only (s "pkg::srv::dds_::Add_Request_") = Ret (s "pkg/srv/Add").
Proof.
  split; [|reflexivity]. apply (sfind_leftmost (s "dds_::") (s "pkg::srv::") (s "Add_Request_")). reflexivity.
Qed.

(** Partial: names without the suffixes are rejected. *)
Theorem C17_other_types_rejected_partial : forall t,
  ~ contains t (s "dds_::") \/ (~ contains t (s "_Request_") /\ ~ ends_with t (s "_Response_")) ->
  demangle_service_type_only t = Ret [].
Proof. exact demangle_service_rejects. Qed.
Print Assumptions C17_other_types_rejected_partial.

Example C17_other_types_rejected_partial_nonvacuous :
  ~ contains (s "pkg::srv::dds_::Add_Response_x") (s "_Request_") /\
  contains (s "pkg::srv::dds_::Add_Response_x") (s "dds_::").
Proof.
  split; [apply Str_proofs.sfind_none; reflexivity|].
  exists (s "pkg::srv::"), (s "Add_Response_x"). reflexivity.
Qed.

(** A name whose "_Request_" is not at its end is accepted. *)
Theorem C17_misplaced_suffix_refuted : exists t r,
  ~ ends_with t (s "_Request_") /\ ~ ends_with t (s "_Response_") /\
  demangle_service_type_only t = Ret r /\ r <> [].
Proof. exact demangle_service_accepts_bad. Qed.
Print Assumptions C17_misplaced_suffix_refuted.

(** Mangling a service type and back. *)
Theorem C17_service_type_round_trip : forall t pkg T, leftmost t (s "/srv/") pkg T ->
  starts_with t (s "rq/") \/ starts_with t (s "rr/") ->
  ~ In ":"%char pkg -> ~ In "/"%char T -> ~ contains (pkg ++ s "/") (s "dds_/") ->
  exists d, mangle_service_type_only t = Ret d /\ demangle_service_type_only d = Ret t.
Proof. exact service_type_round_trip. Qed.
Print Assumptions C17_service_type_round_trip.

Example C17_service_type_round_trip_nonvacuous :
  leftmost (s "rq/pkg/srv/Add") (s "/srv/") (s "rq/pkg") (s "Add") /\
  mangle_service_type_only (s "rq/pkg/srv/Add") = Ret (s "rq::pkg::srv::dds_::Add_Request_").
Proof. split; [|reflexivity]. apply (sfind_leftmost (s "/srv/") (s "rq/pkg") (s "Add")). reflexivity. Qed.

Theorem C17_other_types_not_mangled : forall t,
  ~ contains t (s "/srv/") \/ (~ starts_with t (s "rq/") /\ ~ starts_with t (s "rr/")) ->
  mangle_service_type_only t = Ret [].
Proof. exact mangle_service_rejects. Qed.
Print Assumptions C17_other_types_not_mangled.

(** every call returns *)
Theorem C17_returns : forall t, (exists r, demangle_service_type_only t = Ret r) /\ (exists r, mangle_service_type_only t = Ret r).
Proof. exact service_types_total. Qed.
Print Assumptions C17_returns.

Example C17_other_types_not_mangled_nonvacuous : ~ contains (s "pkg/msg/Add") (s "/srv/").
Proof. apply Str_proofs.sfind_none. reflexivity. Qed.
