(** Round trip of written service definitions (over significant tokens). *)
From Verif Require Import GoStr GoStrProofs Scanner Lexer Unquote Parser ParserSpec ParserList ParserSim.

Lemma str_neqb : forall a b, a <> b -> str_eqb a b = false.
Proof. intros a b H. apply str_eqb_neq. exact H. Qed.

Lemma aff_filler : forall sk s, filler_ok sk -> aff (T "{") (sk ++ (OPEN_BRACE, T "{") :: s) = AOk tt s.
Proof.
  induction sk as [|[t v] sk IH]; intros s H; [reflexivity|]. inversion H as [|x l (H1 & H2 & H3) Hl]; subst.
  cbn [fst snd] in *. cbn [app aff].
  assert (E1 : token_eqb t TEOF = false) by (destruct t; reflexivity || congruence).
  assert (E2 : token_eqb t ILLEGAL = false) by (destruct t; reflexivity || congruence).
  rewrite E1, E2. cbn [orb]. rewrite (str_neqb _ _ H3). apply IH. exact Hl.
Qed.

Lemma last_cons : forall A (l : list A) x d, last (x :: l) d = last l x.
Proof.
  intros A l. induction l as [|y l IH]; intros x d; [reflexivity|].
  change (last (x :: y :: l) d) with (last (y :: l) d). rewrite !IH. reflexivity.
Qed.

Lemma askip_comments : forall cs desc t v s, t <> COMMENT ->
  askip desc (comments cs ++ (t, v) :: s) = (last cs desc, (t, v), s).
Proof.
  induction cs as [|c cs IH]; intros desc t v s H; cbn [comments map app askip].
  - assert (E : token_eqb t COMMENT = false) by (destruct t; reflexivity || congruence). rewrite E. reflexivity.
  - cbn [token_eqb]. rewrite last_cons. apply (IH c). exact H.
Qed.

(** One field. *)
Lemma afields_field : forall fuel f s fs cs, field_ok f ->
  afields (S fuel) (write_field f ++ s) [] fs cs = afields fuel s [] (fs ++ [mean_field f]) cs.
Proof.
  intros fuel f s fs cs (H1 & H2 & H3). unfold write_field. rewrite <- app_assoc. cbn [app afields].
  rewrite askip_comments by discriminate. cbn [token_eqb orb andb].
  rewrite (str_neqb _ _ H1), (str_neqb _ _ H2). cbn [anext token_eqb negb].
  change (str_eqb (T ":") (T ":")) with true. cbn [negb orb]. rewrite H3. reflexivity.
Qed.

Lemma afields_fields : forall fl fuel s fs cs, Forall field_ok fl ->
  afields (length fl + fuel) (concat (map write_field fl) ++ s) [] fs cs
  = afields fuel s [] (fs ++ map mean_field fl) cs.
Proof.
  induction fl as [|f fl IH]; intros fuel s fs cs H; cbn [length plus map concat app].
  - rewrite app_nil_r. reflexivity.
  - inversion H; subst. rewrite <- app_assoc, afields_field by assumption. rewrite IH by assumption.
    rewrite <- app_assoc. reflexivity.
Qed.

(** The end of a field list. *)
Definition stops (x : stok) : Prop := x = (CLOSE_BRACE, T "}") \/ x = (IDENT, T "additional_bindings").
Lemma afields_stop : forall fuel tr x s fs cs, stops x ->
  afields (S fuel) (comments tr ++ x :: s) [] fs cs = AOk (fs, cs) (x :: s).
Proof.
  intros fuel tr x s fs cs [-> | ->]; cbn [afields]; rewrite askip_comments by discriminate; reflexivity.
Qed.

Lemma write_field_len : forall f, 3 <= length (write_field f).
Proof. intro f. unfold write_field. rewrite app_length. cbn. lia. Qed.
Lemma write_fields_len : forall fl, length fl <= length (concat (map write_field fl)).
Proof.
  induction fl as [|f fl IH]; [cbn; lia|]. cbn [map concat]. rewrite app_length. pose proof (write_field_len f). cbn [length]. lia.
Qed.

(** A field list run with any sufficient fuel. *)
Lemma afields_any : forall fuel fuel' s d fs cs, length s < fuel -> length s < fuel' ->
  afields fuel s d fs cs = afields fuel' s d fs cs.
Proof. intros. apply (afields_fuel (length s)); auto. Qed.

Lemma aff_close : forall s, aff (T "}") ((CLOSE_BRACE, T "}") :: s) = AOk tt s.
Proof. reflexivity. Qed.

Lemma afields_item : forall i fuel s fs cs, item_ok i -> length (write_item i ++ s) < fuel ->
  afields fuel (write_item i ++ s) [] fs cs
  = afields fuel s [] (fs ++ item_fields i) (match i with SCustom _ l _ => map mean_field l | _ => cs end).
Proof.
  intros [f|sk fl tr] fuel s fs cs Hok Hf; (destruct fuel as [|fuel]; [lia|]).
  - cbn [write_item item_fields] in *. rewrite afields_field by exact Hok.
    apply afields_any; rewrite app_length in Hf; pose proof (write_field_len f); lia.
  - destruct Hok as [Hsk Hfl].
    assert (HL : length s < fuel /\ length (concat (map write_field fl) ++ comments tr ++ (CLOSE_BRACE, T "}") :: s) < fuel).
    { cbn [write_item app length] in Hf. rewrite !app_length in Hf. cbn [length] in Hf. rewrite !app_length in Hf. cbn [length] in Hf.
      rewrite !app_length. cbn [length]. lia. }
    destruct HL as [HL1 HL2].
    transitivity (afields fuel s [] fs (map mean_field fl));
      [|cbn [item_fields]; rewrite app_nil_r; apply afields_any; lia].
    cbn [write_item item_fields app]. rewrite <- !app_assoc. cbn [app]. rewrite <- !app_assoc.
    cbn [afields askip token_eqb orb andb].
    change (str_eqb (T "custom") (T "additional_bindings")) with false.
    change (str_eqb (T "custom") (T "custom")) with true. cbv iota.
    rewrite aff_filler by exact Hsk. cbn [awrap abind].
    assert (Ein : afields fuel (concat (map write_field fl) ++ comments tr ++ [(CLOSE_BRACE, T "}")] ++ s) [] [] []
                  = AOk (map mean_field fl, []) ((CLOSE_BRACE, T "}") :: s)).
    { cbn [app] in *.
      rewrite (afields_any fuel (length fl + S fuel)) by lia.
      rewrite afields_fields by exact Hfl. apply afields_stop. left. reflexivity. }
    cbn [app] in Ein |- *.
    match type of Ein with ?L = _ => match goal with |- abind (awrap ?m ?X) _ = _ => change X with L end end.
    rewrite Ein. cbn [awrap abind]. rewrite aff_close. reflexivity.
Qed.

Lemma afields_items : forall is fuel s fs cs, Forall item_ok is -> length (concat (map write_item is) ++ s) < fuel ->
  afields fuel (concat (map write_item is) ++ s) [] fs cs
  = afields fuel s [] (fs ++ concat (map item_fields is))
      (fold_left (fun c i => match i with SCustom _ l _ => map mean_field l | SField _ => c end) is cs).
Proof.
  induction is as [|i is IH]; intros fuel s fs cs H Hf; cbn [map concat app fold_left].
  - rewrite app_nil_r. reflexivity.
  - inversion H; subst. cbn [map concat] in Hf. rewrite <- app_assoc in *. rewrite afields_item by assumption.
    rewrite IH; [|assumption|rewrite app_length in Hf; lia].
    rewrite <- app_assoc. destruct i; reflexivity.
Qed.

Lemma aparse_fields_body : forall is tr x s, Forall item_ok is -> stops x ->
  aparse_fields (concat (map write_item is) ++ comments tr ++ x :: s)
  = AOk (concat (map item_fields is), mean_custom is) (x :: s).
Proof.
  intros is tr x s H Hx. unfold aparse_fields. rewrite afields_items by (assumption || lia).
  cbn [app]. apply afields_stop. exact Hx.
Qed.

Lemma aadditional_ok : forall desc b s, body_ok b ->
  aadditional desc (write_body b ++ (CLOSE_BRACE, T "}") :: s) = AOk (Some [mean_body desc b]) s.
Proof.
  intros desc b s [H1 H2]. unfold aadditional, write_body. rewrite <- !app_assoc. cbn [app]. rewrite <- !app_assoc.
  rewrite aff_filler by exact H1. cbn [abind].
  rewrite aparse_fields_body by (assumption || (left; reflexivity)). cbn [abind]. rewrite aff_close. reflexivity.
Qed.

Lemma aoption_comments : forall cs fuel s rv no, length cs < fuel ->
  aoption fuel (comments cs ++ s) rv no = aoption (fuel - length cs) s rv no.
Proof.
  induction cs as [|c cs IH]; intros fuel s rv no Hf; cbn [comments map app length].
  - rewrite Nat.sub_0_r. reflexivity.
  - cbn [length] in Hf. destruct fuel as [|fuel]; [lia|]. cbn [aoption anext token_eqb]. apply (IH fuel). lia.
Qed.

Lemma comments_len : forall cs, length (comments cs) = length cs.
Proof. intro cs. apply map_length. Qed.

Lemma aoption_more : forall more fuel tr s rv no, Forall (fun a => body_ok (a_body a)) more ->
  length (concat (map write_additional more) ++ comments tr ++ (CLOSE_BRACE, T "}") :: s) < fuel ->
  aoption fuel (concat (map write_additional more) ++ comments tr ++ (CLOSE_BRACE, T "}") :: s) rv no
  = AOk (Some (rv ++ map (fun a => mean_body [] (a_body a)) more ++ [no])) s.
Proof.
  induction more as [|a more IH]; intros fuel tr s rv no H Hf; cbn [map concat app].
  - cbn [map concat app] in Hf. rewrite app_length, comments_len in Hf. cbn [length] in Hf.
    rewrite aoption_comments by lia. destruct (fuel - length tr) as [|k] eqn:E; [lia|]. reflexivity.
  - inversion H; subst. cbn [map concat] in Hf. unfold write_additional at 1 in Hf. unfold write_additional at 1. rewrite <- !app_assoc in Hf.
    rewrite <- !app_assoc. rewrite app_length, comments_len in Hf.
    rewrite aoption_comments by lia. destruct (fuel - length (a_comments a)) as [|k] eqn:E; [cbn [app length] in Hf; lia|].
    cbn [app]. cbn [aoption anext token_eqb].
    change (str_eqb (T "additional_bindings") (T "additional_bindings")) with true. cbn [orb]. cbv iota.
    rewrite <- app_assoc. cbn [app]. rewrite aadditional_ok by assumption. cbn [abind].
    rewrite IH; [|assumption|].
    + rewrite <- app_assoc. reflexivity.
    + cbn [app length] in Hf. repeat (rewrite ?app_length in *; cbn [app length] in * ). lia.
Qed.

Lemma ahttp_option : forall o s, option_ok o -> ahttp (write_option o ++ s) = AOk (Some (mean_option o)) s.
Proof.
  intros o s [Hb Hm]. unfold ahttp, write_option. rewrite <- !app_assoc. cbn [app]. rewrite <- !app_assoc. rewrite askip_comments by discriminate.
  cbn [token_eqb orb]. change (str_eqb (T "option") (T "option")) with true. cbv iota.
  unfold write_body. rewrite <- !app_assoc. cbn [app]. rewrite <- !app_assoc.
  destruct Hb as [Hfil Hit]. rewrite aff_filler by exact Hfil. cbn [abind].
  set (R := concat (map write_additional (o_more o)) ++ comments (o_trailing o) ++ (CLOSE_BRACE, T "}") :: s).
  assert (Hgen : exists x y r, stops x /\ R = comments y ++ x :: r).
  { unfold R. destruct (o_more o) as [|a more]; cbn [map concat app].
    - exists (CLOSE_BRACE, T "}"), (o_trailing o), s. split; [left; reflexivity|]. reflexivity.
    - unfold write_additional at 1. rewrite <- !app_assoc. cbn [app]. eexists _, (a_comments a), _.
      split; [right; reflexivity|]. reflexivity. }
  destruct Hgen as (x & y & r & Hst & HR).
  assert (Ef : aparse_fields (concat (map write_item (b_items (o_body o))) ++ comments (b_trailing (o_body o)) ++ R)
    = AOk (concat (map item_fields (b_items (o_body o))), mean_custom (b_items (o_body o))) (x :: r)).
  { rewrite HR. rewrite <- (aparse_fields_body _ (b_trailing (o_body o) ++ y) x r Hit Hst).
    unfold comments. rewrite map_app, <- app_assoc. reflexivity. }
  match goal with |- abind ?X _ = _ =>
    change X with (aparse_fields (concat (map write_item (b_items (o_body o))) ++ comments (b_trailing (o_body o)) ++ R)) end.
  rewrite Ef. cbn [abind].
  assert (Eloop : forall no, aoption (S (length (x :: r))) (x :: r) [] no = aoption (S (length R)) R [] no).
  { intro no. rewrite HR. rewrite aoption_comments by (rewrite app_length, comments_len; lia).
    rewrite app_length, comments_len.
    replace (S (length y + length (x :: r)) - length y) with (S (length (x :: r))) by lia. reflexivity. }
  rewrite Eloop. unfold R. rewrite aoption_more; [|exact Hm|lia]. reflexivity.
Qed.

Lemma atype_ok : forall rest ty s, Forall (fun x => fst x = SYMBOL \/ fst x = IDENT) rest ->
  atype ty (rest ++ (CLOSE_PAREN, T ")") :: s)
  = AOk (last (map snd (filter (fun x : stok => token_eqb (fst x) IDENT) rest)) ty) s.
Proof.
  induction rest as [|[t v] rest IH]; intros ty s H; [reflexivity|].
  inversion H as [|x l Hx Hl]; subst. cbn [fst] in Hx. cbn [app atype filter fst].
  destruct Hx as [-> | ->]; cbn [token_eqb].
  - apply IH. exact Hl.
  - cbn [map snd]. rewrite last_cons. apply IH. exact Hl.
Qed.

Lemma aarg_ok : forall e t s, type_ok t -> aarg e (write_type t ++ s) = AOk (mean_type t) s.
Proof.
  intros e [st fi re] s [H1 H2]. cbn [t_stream t_first t_rest] in *. unfold aarg, write_type, mean_type.
  cbn [t_stream t_first t_rest app anext token_eqb negb].
  destruct st; cbn [app anext].
  - change (str_eqb (T "stream") (T "stream")) with true. cbv iota. cbn [anext token_eqb negb atype].
    rewrite <- app_assoc. cbn [app]. apply atype_ok. exact H2.
  - rewrite (str_neqb _ _ (H1 eq_refl)). cbn [anext token_eqb negb atype].
    rewrite <- app_assoc. cbn [app]. apply atype_ok. exact H2.
Qed.

Lemma amethod_ok : forall m s, method_ok m ->
  amethod (write_method m ++ s) = AOk (match mean_method m with [x] => Some x | _ => None end) s.
Proof.
  intros m s (Hq & Hr & Ho). unfold amethod, write_method. rewrite <- app_assoc. cbn [app]. rewrite (askip_comments _ _ IDENT) by discriminate.
  cbn [token_eqb negb orb]. change (str_eqb (T "rpc") (T "rpc")) with true. cbn [negb]. cbn [app anext token_eqb negb].
  rewrite <- !app_assoc. rewrite aarg_ok by exact Hq. cbn [abind app anext token_eqb].
  change (str_eqb (T "returns") (T "returns")) with true. cbn [negb orb].
  rewrite <- app_assoc. rewrite aarg_ok by exact Hr. cbn [abind].
  unfold mean_method. destruct (m_options m) as [|cs|o c1 c2]; cbn [write_options app anext].
  - change (str_eqb (T ";") (T ";")) with true. reflexivity.
  - change (str_eqb (T "{") (T ";")) with false. cbn [token_eqb negb]. unfold ahttp.
    rewrite <- app_assoc. cbn [app]. rewrite askip_comments by discriminate. reflexivity.
  - change (str_eqb (T "{") (T ";")) with false. cbn [token_eqb negb]. cbv iota.
    rewrite <- !app_assoc. rewrite ahttp_option by exact Ho. cbn [abind]. unfold aend. cbn [app].
    rewrite (askip_comments _ _ SYMBOL) by discriminate. cbn [token_eqb negb].
    change (str_eqb (T ";") (T ";")) with true. cbn [negb orb app]. rewrite <- app_assoc. cbn [app].
    rewrite askip_comments by discriminate. reflexivity.
Qed.

Lemma write_method_len : forall m, 1 <= length (write_method m).
Proof. intro m. unfold write_method. rewrite app_length. cbn [length]. lia. Qed.

Lemma amethods_ok : forall msrc fuel tr s ms, Forall method_ok msrc ->
  length (concat (map write_method msrc)) < fuel ->
  exists s', amethods fuel (concat (map write_method msrc) ++ comments tr ++ (CLOSE_BRACE, T "}") :: s) ms
  = AOk (ms ++ concat (map mean_method msrc)) s'.
Proof.
  induction msrc as [|m msrc IH]; intros fuel tr s ms H Hf; (destruct fuel as [|fuel]; [lia|]).
  - cbn [map concat app amethods]. unfold amethod. rewrite askip_comments by discriminate. cbn [token_eqb].
    eexists. rewrite app_nil_r. reflexivity.
  - inversion H; subst. cbn [map concat]. cbn [map concat] in Hf. rewrite app_length in Hf.
    pose proof (write_method_len m).
    rewrite <- app_assoc. cbn [amethods]. rewrite amethod_ok by assumption.
    assert (Hm : mean_method m = [] \/ exists x, mean_method m = [x]).
    { unfold mean_method. destruct (m_options m); eauto. }
    destruct Hm as [-> | (x & ->)].
    + apply IH; [assumption|lia].
    + destruct (IH fuel tr s (ms ++ [x])) as (s' & ->); [assumption|lia|]. exists s'. rewrite <- app_assoc. reflexivity.
Qed.

Lemma aservice_ok : forall sv s, service_ok sv -> exists s', aservice (write_service sv ++ s) = AOk (mean_service sv) s'.
Proof.
  intros sv s H. unfold aservice, write_service. cbn [app anext token_eqb negb andb].
  rewrite <- !app_assoc. cbn [app].
  destruct (amethods_ok (s_methods sv) (S (length (concat (map write_method (s_methods sv)) ++ comments (s_trailing sv)
    ++ (CLOSE_BRACE, T "}") :: s))) (s_trailing sv) s [] H) as (s' & ->).
  { rewrite app_length. lia. }
  cbn [abind]. eexists. reflexivity.
Qed.

(** Unquoting plain text. *)
Lemma unquote_body_plain : forall s fuel, plain_text s -> length s < fuel -> unquote_body fuel s = Some s.
Proof.
  induction s as [|c s IH]; intros fuel H Hf; (destruct fuel as [|fuel]; [cbn in Hf; lia|]); cbn [unquote_body]; [reflexivity|].
  inversion H as [|x l (H1 & H2 & H3) Hl]; subst. cbn in Hf.
  destruct (N.eqb_spec c c_nl); [congruence|]. destruct (N.eqb_spec c c_dquote); [congruence|].
  destruct (N.eqb_spec c c_backslash); [congruence|]. rewrite IH by (assumption || lia). reflexivity.
Qed.
Lemma unquote_plain : forall s, plain_text s -> unquote ([c_dquote] ++ s ++ [c_dquote]) = Some s.
Proof.
  intros s H. unfold unquote. cbn [app]. rewrite N.eqb_refl. rewrite rev_app_distr. cbn [rev app].
  rewrite N.eqb_refl. rewrite rev_involutive. apply unquote_body_plain; [exact H|]. rewrite rev_length. lia.
Qed.
