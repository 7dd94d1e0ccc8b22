(** Property theorems C23-C26, C49: names (pkg/strs.go). *)
From Verif Require Import GoStr GoStrProofs Strs StrsSpec StrsProofs.

(** C23 *)
Theorem c23_camel_is_exported_ident : forall s, proto_ident s -> exported_ident (go_camel_case s).
Proof. exact camel_exported. Qed.
Print Assumptions c23_camel_is_exported_ident.
(** Beginning with a dot or a digit it is not. *)
Theorem c23_leading_dot_refuted : go_camel_case (T "._a") = T "_XA" /\ go_camel_case (T "9a") = T "9A".
Proof. split; reflexivity. Qed.

(** C24 *)
Theorem c24_camel_stable : forall s, ~ In c_dot s -> go_camel_case (go_camel_case s) = go_camel_case s.
Proof. exact camel_stable. Qed.
Print Assumptions c24_camel_stable.
Theorem c24_dotted_refuted : go_camel_case (go_camel_case (T "._a")) <> go_camel_case (T "._a").
Proof. vm_compute. discriminate. Qed.
Theorem c24_injective_refuted : exists a b, a <> b /\ go_camel_case a = go_camel_case b.
Proof. exists (T "foo_bar"), (T "FooBar"). split; [discriminate|reflexivity]. Qed.

(** C25 *)
Theorem c25_snake_inverts_camel : forall s, snake s -> json_snake_case (json_camel_case s) = s.
Proof. exact json_inverse_gen. Qed.
Print Assumptions c25_snake_inverts_camel.
Theorem c25_camel_no_underscore : forall s, ~ In c_underscore (json_camel_case s).
Proof. intro s. apply json_camel_no_underscore. Qed.
Theorem c25_camel_keeps_plain : forall s, ~ In c_underscore s -> json_camel_case s = s.
Proof. exact json_camel_id. Qed.
Theorem c25_snake_no_upper : forall s, Forall (fun c => is_upper c = false) (json_snake_case s).
Proof. exact json_snake_no_upper. Qed.
Print Assumptions c25_snake_no_upper.
(** Without the condition on underscores the names collide. *)
Theorem c25_inverse_refuted : json_snake_case (json_camel_case (T "a_1")) <> T "a_1".
Proof. vm_compute. discriminate. Qed.

(** C26 *)
Theorem c26_sanitized_is_ident : forall U s, u_letter U rune_error = false -> go_ident U (go_sanitized U s).
Proof. exact sanitized_ident. Qed.
Print Assumptions c26_sanitized_is_ident.
(** A Go identifier that does not begin with an underscore is left alone. *)
Theorem c26_sanitized_keeps_ident : forall U s, go_ident U s -> starts_letter U s -> go_sanitized U s = s.
Proof. exact sanitized_keeps. Qed.
Print Assumptions c26_sanitized_keeps_ident.

(** C49: trimming the enum's name off an enum value. *)
Theorem c49_trim_is_suffix : forall s p, exists dropped, s = dropped ++ trim_enum_prefix s p.
Proof. exact trim_suffix_of. Qed.
Theorem c49_trim_not_empty : forall s p, s <> [] -> trim_enum_prefix s p <> [].
Proof. exact trim_nonempty. Qed.
Theorem c49_trim_drops_prefix : forall s p, trim_enum_prefix s p <> s ->
  exists dropped, s = dropped ++ trim_enum_prefix s p /\ to_lower (filter (fun c => negb (N.eqb c c_underscore)) dropped) = p.
Proof. exact trim_drops. Qed.
Theorem c49_trim_complete : forall s p us, to_lower (filter (fun c => negb (N.eqb c c_underscore)) s) = p ->
  match us with c :: _ => c <> c_underscore | [] => False end ->
  trim_enum_prefix (s ++ [c_underscore] ++ us) p = us.
Proof. exact trim_complete. Qed.
Print Assumptions c49_trim_drops_prefix.
Print Assumptions c49_trim_complete.
(** Enum value and map entry names never contain an underscore. *)
Theorem c49_names_no_underscore : forall s, ~ In c_underscore (enum_value_name s) /\ ~ In c_underscore (map_entry_name s).
Proof. exact names_no_underscore. Qed.
Print Assumptions c49_names_no_underscore.
(** They are the words between the underscores, capitalised and run together. *)
Theorem c49_enum_value_words : forall s, enum_value_name s = concat (map cap_lower (split1 c_underscore s)).
Proof. intro s. apply enum_words_gen. Qed.
Theorem c49_map_entry_words : forall s, map_entry_name s = concat (map cap_only (split1 c_underscore s)) ++ T "Entry".
Proof. intro s. unfold map_entry_name. f_equal. apply entry_words_gen. Qed.
Print Assumptions c49_enum_value_words.
Print Assumptions c49_map_entry_words.

(** ** The hypotheses are met *)
Example ident_sample : proto_ident (T "_my_field.v2_X") /\ go_camel_case (T "_my_field.v2_X") = T "XMyFieldV2_X".
Proof. split; [split; [|right; reflexivity]|reflexivity]. unfold T. cbn [map list_ascii_of_string].
  repeat (apply Forall_cons; [unfold proto_rune; vm_compute; auto|]). apply Forall_nil. Qed.
Example snake_sample : snake (T "my_field_x") /\ json_camel_case (T "my_field_x") = T "myFieldX".
Proof.
  split; [|reflexivity].
  apply sn_char; [discriminate|reflexivity|]. apply sn_char; [discriminate|reflexivity|]. apply sn_word; [reflexivity|].
  do 4 (apply sn_char; [discriminate|reflexivity|]). apply sn_word; [reflexivity|]. constructor.
Qed.
Example sanitized_sample : go_sanitized latin1 (T "range") = T "_range" /\ go_sanitized latin1 (T "a-b") = T "a_b"
  /\ go_sanitized latin1 [] = T "_" /\ u_letter latin1 rune_error = false.
Proof. vm_compute. auto. Qed.
Example trim_sample : trim_enum_prefix (T "COLOR_KIND_RED") (T "colorkind") = T "RED" /\ trim_enum_prefix (T "COLOR") (T "color") = T "COLOR".
Proof. split; reflexivity. Qed.
Example words_sample : enum_value_name (T "MY_RED__x") = T "MyRedX" /\ map_entry_name (T "my_tAgs") = T "MyTAgsEntry".
Proof. split; reflexivity. Qed.
