(** The starter file parses. *)
From Verif Require Import GoStr GoStrProofs Scanner ScannerSpec Lexer LexerSpec Unquote Parser ParserSpec ParserProofs3 Strs StrsSpec StrsProofs
  Generator SplitJoin Start StartSpec StartProofs2.

(** Proper nesting by counting. *)
Fixpoint depth_ok (d : nat) (vs : list str) : bool :=
  match vs with
  | [] => Nat.eqb d 0
  | v :: vs' => if str_eqb v (T "{") then depth_ok (S d) vs'
                else if str_eqb v (T "}") then match d with S d' => depth_ok d' vs' | O => false end
                else depth_ok d vs'
  end.
Fixpoint closes (d : nat) (vs : list str) : Prop :=
  match d with O => nested vs | S d' => exists a r, vs = a ++ T "}" :: r /\ nested a /\ closes d' r end.
Lemma closes_other : forall d v vs, v <> T "{" -> v <> T "}" -> closes d vs -> closes d (v :: vs).
Proof.
  intros [|d] v vs H1 H2 H; [apply ne_other; assumption|]. destruct H as (a & r & -> & Ha & Hr). exists (v :: a), r.
  split; [reflexivity|]. split; [apply ne_other; assumption|exact Hr].
Qed.
Lemma nested_app : forall a b, nested a -> nested b -> nested (a ++ b).
Proof.
  intros a b H. revert b. induction H as [|v vs H1 H2 H IH|x y Hx IHx Hy IHy]; intros b Hb; [exact Hb| |].
  - apply ne_other; auto.
  - cbn [app]. rewrite <- app_assoc. cbn [app]. apply ne_block; auto.
Qed.
Lemma closes_block : forall d a r, nested a -> closes d r -> closes d (T "{" :: a ++ T "}" :: r).
Proof.
  intros [|d] a r Ha Hr; [apply ne_block; assumption|]. destruct Hr as (b & q & -> & Hb & Hq).
  exists (T "{" :: a ++ T "}" :: b), q. split; [cbn [app]; rewrite <- app_assoc; reflexivity|]. split; [apply ne_block; assumption|exact Hq].
Qed.
Lemma depth_closes : forall vs d, depth_ok d vs = true -> closes d vs.
Proof.
  induction vs as [|v vs IH]; intros d H; cbn [depth_ok] in H.
  - apply Nat.eqb_eq in H. subst d. apply ne_nil.
  - destruct (str_eqb v (T "{")) eqn:E1.
    { apply str_eqb_eq in E1. subst v. apply IH in H. destruct H as (a & r & -> & Ha & Hr). apply closes_block; assumption. }
    destruct (str_eqb v (T "}")) eqn:E2.
    { apply str_eqb_eq in E2. subst v. destruct d as [|d]; [discriminate|]. apply IH in H. exists [], vs. split; [reflexivity|]. split; [apply ne_nil|exact H]. }
    apply closes_other; [intros ->; discriminate|intros ->; discriminate|]. apply IH. exact H.
Qed.
Lemma depth_nested : forall vs, depth_ok 0 vs = true -> nested vs.
Proof. intros vs H. exact (depth_closes vs 0 H). Qed.

(** The units of an ASCII text. *)
Fixpoint span_of (f : N -> bool) (s : str) : str * str :=
  match s with c :: s' => if f c then let '(a, b) := span_of f s' in (c :: a, b) else ([], s) | [] => ([], []) end.
Fixpoint ascii_units (fuel : nat) (s : str) : list (plain_kind * str) :=
  match fuel, s with
  | S fuel', c :: s' =>
      if ascii_space c then let '(a, b) := span_of ascii_space s in (KSpace, a) :: ascii_units fuel' b
      else if ascii_ident c then let '(a, b) := span_of ascii_ident s in (KIdent, a) :: ascii_units fuel' b
      else if N.eqb c c_dquote then let '(a, b) := span_of (fun x => negb (N.eqb x c_dquote)) s' in
        (KLit, c :: a ++ firstn 1 b) :: ascii_units fuel' (skipn 1 b)
      else (KSym, [c]) :: ascii_units fuel' s'
  | _, _ => []
  end.
Definition units_of (s : str) : list (plain_kind * str) := ascii_units (length s) s.

Definition part1 : str := T "
syntax = ""proto3"";

package ".
Definition part2 : str := T ";

import ""google/api/annotations.proto"";

".
Definition part3 : str := T " {
  rpc Status(StatusRequest) returns (StatusResponse) {
    option (google.api.http) = {
      get: ""/status""
    };
  }
}".
Definition part4 : str := T "

enum ServiceStatus {
  FAIL = 0;
  OK = 1;
}

message StatusRequest {
  bool full = 1;
}

message StatusResponse {
  ServiceStatus status = 1;
}
".
Definition U1 := Eval vm_compute in units_of part1.
Definition U2 := Eval vm_compute in units_of part2.
Definition U3 := Eval vm_compute in units_of part3.
Definition U4 := Eval vm_compute in units_of part4.

Definition starter_pre (p : str) := U1 ++ (KIdent, p) :: U2.
Definition starter_block (s : str) := (KIdent, T "service") :: (KSpace, T " ") :: (KIdent, s) :: U3.

Lemma start_proto_units : forall a, start_proto a
  = concat (map snd (starter_pre (package_name a)) ++ map snd (starter_block (service_name a)) ++ map snd U4).
Proof.
  intro a. unfold start_proto, starter_pre, starter_block. set (p := package_name a). set (s := service_name a).
  rewrite map_app. cbn [map snd]. rewrite !concat_app. cbn [concat]. rewrite <- ?app_assoc.
  change (concat (map snd U1)) with part1. change (concat (map snd U2)) with part2.
  change (concat (map snd U3)) with part3. change (concat (map snd U4)) with part4. reflexivity.
Qed.

(** ** What it means *)
Definition quoted (s : str) : str := [c_dquote] ++ s ++ [c_dquote].
Definition starter_option : option_src :=
  mkOptSrc [] (mkBodySrc [(OPEN_PAREN, T "("); (IDENT, T "google"); (SYMBOL, T "."); (IDENT, T "api"); (SYMBOL, T "."); (IDENT, T "http");
                          (CLOSE_PAREN, T ")"); (SYMBOL, T "=")]
                         [SField (mkFieldSrc [] (T "get") (quoted (T "/status")) (T "/status"))] []) [] [].
Definition starter_service (s : str) : service_src :=
  mkServiceSrc s [mkMethodSrc [] (T "Status") (mkTypeSrc false (T "StatusRequest") []) (mkTypeSrc false (T "StatusResponse") [])
                              (OHttp starter_option [] [])] [].
Lemma starter_service_ok : forall s, service_ok (starter_service s).
Proof.
  intro s. unfold service_ok, starter_service. cbn [s_methods]. apply Forall_cons; [|apply Forall_nil].
  split; [split; [discriminate|apply Forall_nil]|]. split; [split; [discriminate|apply Forall_nil]|]. cbn [m_options]. split; [split|].
  - cbn [o_body starter_option b_filler]. unfold filler_ok. repeat (apply Forall_cons; [split; [discriminate|split; discriminate]|]). apply Forall_nil.
  - cbn [o_body starter_option b_items]. apply Forall_cons; [|apply Forall_nil]. split; [discriminate|]. split; [discriminate|vm_compute; reflexivity].
  - apply Forall_nil.
Qed.
Lemma starter_spelled : forall s, concat (map kind_tokens (starter_block s)) = write_service (starter_service s).
Proof. intro s. vm_compute. reflexivity. Qed.

Section U.
Variable U : unicode.
Hypothesis HU : unicode_ok U.

Lemma lower_ident_shape : forall s, lower_ident s -> shape U KIdent s.
Proof.
  intros [|c s] H; [contradiction|]. destruct H as [H1 H2]. split; [discriminate|]. apply Forall_cons.
  - apply ident_ascii; [exact HU|]. unfold ascii_ident, is_alnum, is_letter. rewrite H1. reflexivity.
  - revert H2. apply Forall_impl. intros d H. apply ident_ascii; [exact HU|]. unfold ascii_ident, is_alnum, is_letter.
    destruct H as [->|[->| ->]]; [reflexivity| |reflexivity]. rewrite !Bool.orb_true_r. reflexivity.
Qed.
Lemma exported_shape : forall s, exported_ident s -> shape U KIdent s.
Proof.
  intros [|c s] H; [contradiction|]. destruct H as [H1 H2]. split; [discriminate|]. apply Forall_cons.
  - apply ident_ascii; [exact HU|]. unfold ascii_ident, is_alnum, is_letter. rewrite H1, Bool.orb_true_r. reflexivity.
  - revert H2. apply Forall_impl. intros d H. apply ident_ascii; [exact HU|]. unfold ascii_ident. destruct H as [->| ->]; reflexivity.
Qed.
Lemma ascii_shapes : forall l, forallb (fun x => ascii_shape (fst x) (snd x)) l = true -> Forall (fun x => shape U (fst x) (snd x)) l.
Proof. intros l H. apply Forall_forall. intros x Hx. rewrite forallb_forall in H. apply ascii_shape_ok; auto. Qed.

Lemma starter_pre_shapes : forall p, shape U KIdent p -> Forall (fun x => shape U (fst x) (snd x)) (starter_pre p).
Proof.
  intros p Hp. unfold starter_pre. apply Forall_app. split; [apply ascii_shapes; reflexivity|].
  apply Forall_cons; [exact Hp|]. apply ascii_shapes. reflexivity.
Qed.
Lemma starter_block_shapes : forall s, shape U KIdent s -> Forall (fun x => shape U (fst x) (snd x)) (starter_block s).
Proof.
  intros s Hs. unfold starter_block.
  assert (H : Forall (fun x => shape U (fst x) (snd x)) [(KIdent, T "service"); (KSpace, T " ")]) by (apply ascii_shapes; reflexivity).
  inversion H as [|x y H1 H2]; subst. inversion H2 as [|x y H3 H4]; subst.
  apply Forall_cons; [exact H1|]. apply Forall_cons; [exact H3|]. apply Forall_cons; [exact Hs|]. apply ascii_shapes. reflexivity.
Qed.

Lemma in_ascii : forall w (l : list str), existsb (str_eqb w) l = false -> ~ In w l.
Proof.
  intros w l H K. assert (E : existsb (str_eqb w) l = true) by (apply existsb_exists; exists w; split; [exact K|apply str_eqb_eq; reflexivity]). congruence.
Qed.
Lemma not_brace : forall s, shape U KIdent s -> ~ (s = T "{" \/ s = T "}").
Proof.
  intros s [_ H] K.
  assert (E : exists c, s = [c] /\ (c = c_lbrace \/ c = c_rbrace)) by (destruct K as [-> | ->]; eexists; split; try reflexivity; auto).
  destruct E as (c & -> & Hc). inversion H as [|x y Hr _]; subst.
  assert (L : (c < 128)%N) by (destruct Hc as [-> | ->]; reflexivity). destruct (proj1 HU c L) as (E1 & E2 & _).
  destruct Hr as [R|[R|R]]; [rewrite E1 in R|rewrite E2 in R|]; destruct Hc as [-> | ->]; discriminate.
Qed.
Lemma starter_pre_free : forall p, shape U KIdent p -> p <> T "service" -> service_free (map snd (starter_pre p)).
Proof.
  intros p Hp Hn. unfold starter_pre. rewrite map_app. cbn [map snd]. split.
  - intro H. apply in_app_or in H. destruct H as [H|[H|H]]; [|contradiction|]; revert H; apply in_ascii; reflexivity.
  - apply nested_app; [apply depth_nested; reflexivity|]. apply ne_other; [| |apply depth_nested; reflexivity].
    + intros ->. exact (not_brace _ Hp (or_introl eq_refl)).
    + intros ->. exact (not_brace _ Hp (or_intror eq_refl)).
Qed.
Definition header (s : str) : list str := [T " "; s; T " "].
Definition body_units := Eval vm_compute in removelast (skipn 2 (map snd U3)).
Lemma starter_block_block : forall s, shape U KIdent s -> s <> T "service" -> service_block (map snd (starter_block s)).
Proof.
  intros s Hs Hn. change (map snd (starter_block s)) with (T "service" :: header s ++ T "{" :: body_units ++ [T "}"]).
  apply sb_intro.
  - intros [K|[K|[K|[]]]]; try discriminate. contradiction.
  - intros [K|[K|[K|[]]]]; try discriminate. exact (not_brace _ Hs (or_introl K)).
  - intros [K|[K|[K|[]]]]; try discriminate. exact (not_brace _ Hs (or_intror K)).
  - apply in_ascii. reflexivity.
  - apply depth_nested. reflexivity.
Qed.
Lemma starter_post : proto_file (map snd U4) [].
Proof. apply pf_end. split; [apply in_ascii; reflexivity|apply depth_nested; reflexivity]. Qed.

Lemma starter_parses : forall a, shape U KIdent (package_name a) -> shape U KIdent (service_name a) ->
  package_name a <> T "service" -> service_name a <> T "service" ->
  exists l, parse_text U globals0 (start_proto a) = Ret (POk (mean_service (starter_service (service_name a))) l, globals0).
Proof.
  intros a Hp Hs Np Ns. rewrite start_proto_units.
  apply (parse_file U HU _ _ _ []).
  - rewrite <- !map_app. apply kinds_separated; [exact HU| |].
    + apply Forall_app. split; [apply starter_pre_shapes; exact Hp|]. apply Forall_app. split; [apply starter_block_shapes; exact Hs|].
      apply ascii_shapes. reflexivity.
    + unfold starter_pre, starter_block. vm_compute. reflexivity.
  - apply starter_pre_free; assumption.
  - apply starter_block_block; assumption.
  - exact starter_post.
  - rewrite <- starter_spelled. apply kinds_spell; [exact HU|]. apply starter_block_shapes. exact Hs.
  - apply starter_service_ok.
Qed.
End U.

(** ** .proto on the command line *)
Lemma has_prefix_split : forall p s, has_prefix s p = true -> exists r, s = p ++ r.
Proof.
  induction p as [|x p IH]; intros s H; [exists s; reflexivity|]. destruct s as [|y s]; [discriminate|]. cbn [has_prefix] in H.
  apply Bool.andb_true_iff in H. destruct H as [H1 H2]. apply N.eqb_eq in H1. subst y. destruct (IH s H2) as [r ->]. exists r. reflexivity.
Qed.
Lemma replace_all_free : forall fuel s old new, (forall a b, s <> a ++ old ++ b) -> replace_all fuel s old new = s.
Proof.
  induction fuel as [|fuel IH]; intros s old new H; [reflexivity|]. cbn [replace_all]. destruct s as [|c s]; [reflexivity|].
  destruct (has_prefix (c :: s) old) eqn:E.
  - exfalso. apply has_prefix_split in E. destruct E as [b E]. apply (H [] b). exact E.
  - rewrite IH; [reflexivity|]. intros a b K. apply (H (c :: a) b). rewrite K. reflexivity.
Qed.
Lemma has_prefix_dot : forall c s, c <> c_dot -> has_prefix (c :: s) (T ".proto") = false.
Proof. intros c s H. change (N.eqb c_dot c && has_prefix s (T "proto") = false). apply Bool.andb_false_iff. left. apply N.eqb_neq. congruence. Qed.
Lemma remove_free : forall a, ~ In c_dot a -> remove_dot_proto_suffix a = a.
Proof.
  intros a H. apply replace_all_free. intros x y E. apply H. rewrite E. apply in_or_app. right. apply in_or_app. left. left. reflexivity.
Qed.
Lemma remove_suffix : forall a, ~ In c_dot a -> remove_dot_proto_suffix (a ++ T ".proto") = a.
Proof.
  intros a H. unfold remove_dot_proto_suffix. remember (length (a ++ T ".proto")) as n eqn:En.
  assert (Hn : length a < n) by (subst n; rewrite app_length; cbn; lia). clear En. revert n Hn.
  induction a as [|c a IH]; intros n Hn; (destruct n as [|n]; [cbn in Hn; lia|]).
  - destruct n; reflexivity.
  - change ((c :: a) ++ T ".proto") with (c :: (a ++ T ".proto")). cbn [replace_all].
    rewrite has_prefix_dot by (intros ->; apply H; left; reflexivity). rewrite IH; [reflexivity| |cbn [length] in Hn; lia].
    intro K. apply H. right. exact K.
Qed.
