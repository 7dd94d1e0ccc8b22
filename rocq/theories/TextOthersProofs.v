(** The templates of the other files execute to the texts of TextOthers.v. *)
From Coq Require Import String Lia.
From Verif Require Import GoStr GoStrProofs GoMap Strs SvcTypes HttpTransport Handler Generator Template TemplateProofs Assets Render RenderProofs TextSpec TextFile TextProofs TextOthers.
Ltac cond := lazymatch goal with
  | |- _ = Some (VBool (with_grpc _)) => apply cond_eq2; reflexivity
  | |- _ = Some (VBool (with_nats _)) => apply cond_eq2; reflexivity
  end.
Ltac steps :=
  lazymatch goal with
  | |- exec_nodes _ _ _ _ [] = Some _ => reflexivity
  | |- exec_nodes _ _ _ _ (_ :: _) = Some _ => apply exec_cons; [node|steps]
  end
with node :=
  lazymatch goal with
  | |- exec_node _ _ _ _ (NText _) = _ => vm_compute; reflexivity
  | |- exec_node _ _ _ _ (NAction _) = _ => eapply exec_act; [reflexivity|reflexivity]
  | |- exec_node _ _ _ _ (NRange _ _ _) = Some (each ?f ?l) => eapply (exec_range_map _ _ _ _ _ _ _ _ l f); [reflexivity|intro; steps]
  | |- exec_node _ _ _ _ (NIf _ _ _) = Some (if ?b then _ else _) =>
      first [apply (exec_if_b _ _ _ _ _ _ _ (VBool b)); [cond|apply truth_bool|steps|steps] | eapply exec_if_b; [reflexivity|first [apply truth_list|apply truth_str]|steps|steps]]
  | |- exec_node _ _ _ _ (NWith _ _ _) = Some _ => eapply exec_with_t; [reflexivity|reflexivity|steps]
  end.
Definition parsed (t : string) : list node := match parse_template (T t) with Some l => l | None => [] end.
Definition service_nodes : list node := Eval vm_compute in parsed service_text.
Lemma service_parses : parse_template (T service_text) = Some service_nodes. Proof. vm_compute. reflexivity. Qed.
Lemma service_is format_source d : render_asset format_source ServicePath d = Some (concat (service_pieces d)).
Proof. unfold render_asset. change (asset_string ServicePath) with (Some (T service_text)). unfold apply_template. rewrite service_parses. unfold execute, service_nodes, service_pieces. steps. Qed.
Definition service_methods_nodes : list node := Eval vm_compute in parsed service_methods_text.
Lemma service_methods_parses : parse_template (T service_methods_text) = Some service_methods_nodes. Proof. vm_compute. reflexivity. Qed.
Lemma service_methods_is format_source svc ms : render_methods format_source svc ms = Some (concat (service_methods_pieces svc ms)).
Proof. unfold render_methods, apply_template. rewrite service_methods_parses. unfold execute, service_methods_nodes, service_methods_pieces. steps. Qed.
Definition service_wrapper_nodes : list node := Eval vm_compute in parsed service_wrapper_text.
Lemma service_wrapper_parses : parse_template (T service_wrapper_text) = Some service_wrapper_nodes. Proof. vm_compute. reflexivity. Qed.
Lemma service_wrapper_is format_source d : render_asset format_source ServiceWrapperPath d = Some (concat (service_wrapper_pieces d)).
Proof. unfold render_asset. change (asset_string ServiceWrapperPath) with (Some (T service_wrapper_text)). unfold apply_template. rewrite service_wrapper_parses. unfold execute, service_wrapper_nodes, service_wrapper_pieces. steps. Qed.
Definition server_nodes : list node := Eval vm_compute in parsed server_text.
Lemma server_parses : parse_template (T server_text) = Some server_nodes. Proof. vm_compute. reflexivity. Qed.
Lemma server_is format_source d : render_asset format_source ServerPath d = Some (concat (server_pieces d)).
Proof. unfold render_asset. change (asset_string ServerPath) with (Some (T server_text)). unfold apply_template. rewrite server_parses. unfold execute, server_nodes, server_pieces. steps. Qed.
Definition server_endpoints_nodes : list node := Eval vm_compute in parsed server_endpoints_text.
Lemma server_endpoints_parses : parse_template (T server_endpoints_text) = Some server_endpoints_nodes. Proof. vm_compute. reflexivity. Qed.
Lemma server_endpoints_is format_source d : render_asset format_source ServerEndpointsPath d = Some (concat (server_endpoints_pieces d)).
Proof. unfold render_asset. change (asset_string ServerEndpointsPath) with (Some (T server_endpoints_text)). unfold apply_template. rewrite server_endpoints_parses. unfold execute, server_endpoints_nodes, server_endpoints_pieces. steps. Qed.
Definition server_interrupt_nodes : list node := Eval vm_compute in parsed server_interrupt_text.
Lemma server_interrupt_parses : parse_template (T server_interrupt_text) = Some server_interrupt_nodes. Proof. vm_compute. reflexivity. Qed.
Lemma server_interrupt_is format_source d : render_asset format_source ServerInterruptPath d = Some (concat (server_interrupt_pieces d)).
Proof. unfold render_asset. change (asset_string ServerInterruptPath) with (Some (T server_interrupt_text)). unfold apply_template. rewrite server_interrupt_parses. unfold execute, server_interrupt_nodes, server_interrupt_pieces. steps. Qed.
Definition server_wrapper_nodes : list node := Eval vm_compute in parsed server_wrapper_text.
Lemma server_wrapper_parses : parse_template (T server_wrapper_text) = Some server_wrapper_nodes. Proof. vm_compute. reflexivity. Qed.
Lemma server_wrapper_is format_source d : render_asset format_source ServerWrapperPath d = Some (concat (server_wrapper_pieces d)).
Proof. unfold render_asset. change (asset_string ServerWrapperPath) with (Some (T server_wrapper_text)). unfold apply_template. rewrite server_wrapper_parses. unfold execute, server_wrapper_nodes, server_wrapper_pieces. steps. Qed.
Definition cmd_server_nodes : list node := Eval vm_compute in parsed cmd_server_text.
Lemma cmd_server_parses : parse_template (T cmd_server_text) = Some cmd_server_nodes. Proof. vm_compute. reflexivity. Qed.
Lemma cmd_server_is format_source d : render_asset format_source CmdServerPath d = Some (concat (cmd_server_pieces d)).
Proof. unfold render_asset. change (asset_string CmdServerPath) with (Some (T cmd_server_text)). unfold apply_template. rewrite cmd_server_parses. unfold execute, cmd_server_nodes, cmd_server_pieces. steps. Qed.
Definition cmd_client_nodes : list node := Eval vm_compute in parsed cmd_client_text.
Lemma cmd_client_parses : parse_template (T cmd_client_text) = Some cmd_client_nodes. Proof. vm_compute. reflexivity. Qed.
Lemma cmd_client_is format_source d : render_asset format_source CmdClientPath d = Some (concat (cmd_client_pieces d)).
Proof. unfold render_asset. change (asset_string CmdClientPath) with (Some (T cmd_client_text)). unfold apply_template. rewrite cmd_client_parses. unfold execute, cmd_client_nodes, cmd_client_pieces. steps. Qed.
