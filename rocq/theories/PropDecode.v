(** C66: what the generated server's request decoder accepts, from any client. *)
From Verif Require Import GoStr GoStrProofs GoMap Decimals SvcTypes Strs HttpSpec HttpTransport HttpTypes Url GenHttp GenHttpSpec GenHttpProofs2 GenHttpProofs4 DecodeSpec DecodeProofs PropGenHttp.

(** The request before the parameters are looked at: the body, if there is one. *)
Definition from_body (K : codecs) (zero : request) (h : http_request) (r0 : request) : Prop :=
  (rq_body h = [] /\ r0 = zero) \/ (rq_body h <> [] /\ pj_dec K (rq_body h) = Some r0).
Definition name_of (p : hparam) : str := fd_pbname (pm_field p).
Definition path_text (vars : gomap str) (p : hparam) : str := match mget vars (name_of p) with Some s => s | None => [] end.
Definition query_texts (h : http_request) (name : str) : option (list str) := mget (parse_query (rq_query h)) name.

Lemma opened : forall K ms i m sb b zero vars h r e, nth_error (sm_bindings m) i = Some sb -> new_binding ms i m = Ret b ->
  decode_request K zero b vars h = DOk r e -> exists os r0 r1 e1, oneof_loop ms (sm_name m) (sb_params sb) = Ret os /\ from_body K zero h r0 /\
    decode_fields K vars (parse_query (rq_query h)) (field_loop (sm_name m) (sb_params sb)) r0 false = DOk r1 e1 /\ decode_oneofs K (parse_query (rq_query h)) os r1 e1 = DOk r e.
Proof.
  intros K ms i m sb b zero vars h r e Hi Hb H. unfold new_binding in Hb. rewrite Hi in Hb. destruct (oneof_loop ms (sm_name m) (sb_params sb)) as [os| |] eqn:Eo; try discriminate.
  injection Hb as <-. unfold decode_request in H. cbn [hb_fields hb_oneofs] in H. exists os.
  assert (G : exists r0, from_body K zero h r0 /\ match decode_fields K vars (parse_query (rq_query h)) (field_loop (sm_name m) (sb_params sb)) r0 false with
    | DOk r' err' => decode_oneofs K (parse_query (rq_query h)) os r' err' | x => x end = DOk r e).
  { destruct (rq_body h) as [|c s] eqn:Eb; [exists zero; split; [left; auto|exact H]|]. rewrite <- Eb in H. destruct (pj_dec K (rq_body h)) as [r0|] eqn:Ep; [|discriminate].
    exists r0. split; [right; split; [rewrite Eb; discriminate|rewrite Eb in *; exact Ep]|exact H]. }
  destruct G as (r0 & G1 & G2). destruct (decode_fields K vars (parse_query (rq_query h)) (field_loop (sm_name m) (sb_params sb)) r0 false) as [r1 e1| |] eqn:Ed; try discriminate.
  exists r0, r1, e1. auto.
Qed.
Lemma camels_fields : forall meth ps, NoDup (map camel_of ps) -> NoDup (map hf_camel (field_loop meth ps)).
Proof. intros meth ps H. rewrite field_loop_plain, map_map. apply (nodup_sub plain_field ps H). Qed.
(** The part of an accepted request that belongs to a plain parameter. *)
Lemma field_part : forall K ms i m sb b zero vars h r e p, nth_error (sm_bindings m) i = Some sb -> new_binding ms i m = Ret b -> NoDup (map camel_of (sb_params sb)) ->
  decode_request K zero b vars h = DOk r e -> In p (sb_params sb) -> plain_field p = true ->
  exists r0, from_body K zero h r0 /\ (pm_loc p = T "body" -> r (camel_of p) = r0 (camel_of p)) /\
   (pm_loc p <> T "body" -> exists r1 e1 r2 e2, decode_field K vars (parse_query (rq_query h)) (new_hfield (sm_name m) p) r1 e1 = DOk r2 e2 /\ r1 (camel_of p) = r0 (camel_of p) /\ r (camel_of p) = r2 (camel_of p)).
Proof.
  intros K ms i m sb b zero vars h r e p Hi Hb Hnd H Hp Hpl. destruct (opened _ _ _ _ _ _ _ _ _ _ _ Hi Hb H) as (os & r0 & r1 & e1 & Eo & Hr0 & E1 & E2).
  exists r0. split; [exact Hr0|]. destruct (oneof_loop_camels _ _ _ _ Eo) as [C _].
  destruct (decode_oneofs_ok _ _ _ _ _ _ _ _ C (nodup_sub is_oneof _ Hnd) E2) as [A2 _].
  assert (Ek : r (camel_of p) = r1 (camel_of p)).
  { apply A2. intro Kk. apply in_map_iff in Kk. destruct Kk as (p' & E & Hp'). apply filter_In in Hp'. destruct Hp' as [Hp' Ho].
    assert (p' = p) by (eapply same_param; eassumption). subst p'. unfold plain_field in Hpl. rewrite Ho in Hpl. discriminate. }
  destruct (decode_fields_ok _ _ _ _ _ _ _ _ (camels_fields (sm_name m) _ Hnd) E1) as [_ B].
  assert (Hf : In (new_hfield (sm_name m) p) (field_loop (sm_name m) (sb_params sb))) by (rewrite field_loop_plain; apply in_map; apply filter_In; auto).
  destruct (B _ Hf) as [B1 B2]. change (hf_camel (new_hfield (sm_name m) p)) with (camel_of p) in *. change (hf_loc (new_hfield (sm_name m) p)) with (pm_loc p) in *. rewrite Ek.
  split; [exact B1|]. intro Hl. exact (B2 Hl).
Qed.
Lemma scalar_plain : forall p n, one_scalar (fd_type (pm_field p)) n -> plain_field p = true.
Proof.
  intros p n H. unfold plain_field, is_oneof. inversion H as [n0 star Hn E|n0 i Hn E]; subst; cbn [ft_oneof ft_name negb andb].
  - cbn [go_base_types In] in Hn. repeat destruct Hn as [<-|Hn]; try reflexivity. contradiction.
  - apply str_eqb_neq in Hn. rewrite Hn. reflexivity.
Qed.

(** ** Single scalars and enums: the accepted request has what the text says, in the path or in the first query value;
    with no query value, or for a parameter of the body, it has what the body had. *)
Theorem c66_scalar : forall K ms i m sb b zero vars h r e p n,
  nth_error (sm_bindings m) i = Some sb -> new_binding ms i m = Ret b -> NoDup (map camel_of (sb_params sb)) ->
  decode_request K zero b vars h = DOk r e -> In p (sb_params sb) -> one_scalar (fd_type (pm_field p)) n ->
  exists r0, from_body K zero h r0
    /\ (pm_loc p = T "body" -> r (camel_of p) = r0 (camel_of p))
    /\ (pm_loc p = T "path" -> exists v, reads K n (path_text vars p) v /\ r (camel_of p) = stored (fd_type (pm_field p)) v)
    /\ (pm_loc p = T "query" -> match query_texts h (name_of p) with
                               | None => r (camel_of p) = r0 (camel_of p)
                               | Some l => exists s rest v, l = s :: rest /\ reads K n s v /\ r (camel_of p) = stored (fd_type (pm_field p)) v
                               end).
Proof.
  intros K ms i m sb b zero vars h r e p n Hi Hb Hnd H Hp Hs. destruct (field_part _ _ _ _ _ _ _ _ _ _ _ _ Hi Hb Hnd H Hp (scalar_plain p n Hs)) as (r0 & Hr0 & Hbody & Hrest).
  exists r0. split; [exact Hr0|]. split; [exact Hbody|]. destruct (scalar_hfield (sm_name m) p n Hs) as (q & Eq & Ec & Hk & Ht). set (f := new_hfield (sm_name m) p) in *.
  split; intro Hl; destruct Hrest as (r1 & e1 & r2 & e2 & Ed & E1 & E2); try (rewrite Hl; discriminate); unfold decode_field in Ed; change (hf_loc f) with (pm_loc p) in Ed; rewrite Hl in Ed.
  - change (str_eqb (T "path") (T "path")) with true in Ed. cbn iota in Ed. change (hf_query f) with (name_of p) in Ed. fold (path_text vars p) in Ed.
    apply assign_ok in Ed. destruct Ed as (v & w & Ev & Ew & ->). exists v. split; [apply (parse_scalar_reads K n q); [exact Eq|]; eapply run_scalar; eassumption|].
    rewrite E2. rewrite (Ht v w Ew). apply upd_same.
  - change (str_eqb (T "query") (T "path")) with false in Ed. cbn iota in Ed. change (hf_query f) with (name_of p) in Ed. fold (query_texts h (name_of p)) in Ed.
    destruct (query_texts h (name_of p)) as [[|s arr]|]; [discriminate| |injection Ed as <- <-; congruence].
    apply assign_ok in Ed. destruct Ed as (v & w & Ev & Ew & ->). exists s, arr, v. split; [reflexivity|]. split; [apply (parse_scalar_reads K n q); [exact Eq|]; eapply run_scalar; eassumption|].
    rewrite E2. rewrite (Ht v w Ew). apply upd_same.
Qed.
(** So a text that is none of the type is refused. *)
Theorem c66_refused : forall K ms i m sb b zero vars h p n,
  nth_error (sm_bindings m) i = Some sb -> new_binding ms i m = Ret b -> NoDup (map camel_of (sb_params sb)) ->
  In p (sb_params sb) -> one_scalar (fd_type (pm_field p)) n ->
  (pm_loc p = T "path" /\ (forall v, ~ reads K n (path_text vars p) v)) \/
  (pm_loc p = T "query" /\ exists s rest, query_texts h (name_of p) = Some (s :: rest) /\ forall v, ~ reads K n s v) ->
  forall r e, decode_request K zero b vars h <> DOk r e.
Proof.
  intros K ms i m sb b zero vars h p n Hi Hb Hnd Hp Hs Hbad r e H. destruct (c66_scalar _ _ _ _ _ _ _ _ _ _ _ _ _ Hi Hb Hnd H Hp Hs) as (r0 & _ & _ & H1 & H2).
  destruct Hbad as [[Hl Hn]|[Hl (s & rest & Eq & Hn)]].
  - destruct (H1 Hl) as (v & Hv & _). exact (Hn v Hv).
  - specialize (H2 Hl). rewrite Eq in H2. destruct H2 as (s' & rest' & v & E & Hv & _). injection E as <- <-. exact (Hn v Hv).
Qed.
(** A missing path variable is read as the empty text: refused for every type but string. *)
Lemma reads_nil : forall K n v, reads K n [] v -> fl_parse K 32 [] = None -> fl_parse K 64 [] = None -> n = T "string".
Proof.
  intros K n v H F1 F2. inversion H as [d D|d D|s z S|s z S|s I|s I|s f F|s f F|s]; subst; try (destruct D; congruence); try reflexivity; try congruence.
  - inversion S as [d D E|d D E|d D E]; destruct D; congruence.
  - inversion S as [d D E|d D E|d D E]; destruct D; congruence.
  - cbn [In] in I. repeat destruct I as [I|I]; try discriminate. contradiction.
  - cbn [In] in I. repeat destruct I as [I|I]; try discriminate. contradiction.
Qed.

(** ** Repeated scalars given several times: the list of what the texts say. *)
Lemma parse_each_reads : forall K n p, scalar_table n = Some p -> forall err arr l, parse_each K p err arr = Some l -> Forall2 (reads K n) arr l.
Proof.
  intros K n p Ep err. induction arr as [|s arr IH]; intros l H; cbn [parse_each] in H; [injection H as <-; constructor|].
  destruct (match p with PCopy => if err then None else Some (VS s) | _ => parse_scalar K p s end) as [v|] eqn:E; [|discriminate].
  destruct (parse_each K p err arr) as [l'|]; [|discriminate]. injection H as <-. constructor; [|apply IH; reflexivity].
  apply (parse_scalar_reads K n p s v Ep). destruct p; try exact E. destruct err; [discriminate|exact E].
Qed.
Theorem c66_repeated : forall K ms i m sb b zero vars h r e p n s1 s2 rest,
  nth_error (sm_bindings m) i = Some sb -> new_binding ms i m = Ret b -> NoDup (map camel_of (sb_params sb)) ->
  decode_request K zero b vars h = DOk r e -> In p (sb_params sb) ->
  In n go_base_types -> fd_type (pm_field p) = mkFT n None None None None false true -> pm_loc p = T "query" ->
  query_texts h (name_of p) = Some (s1 :: s2 :: rest) ->
  exists l, Forall2 (reads K n) (s1 :: s2 :: rest) l /\ r (camel_of p) = VList l.
Proof.
  intros K ms i m sb b zero vars h r e p n s1 s2 rest Hi Hb Hnd H Hp Hn Et Hl Eq.
  assert (Hpl : plain_field p = true).
  { unfold plain_field, is_oneof. rewrite Et. cbn [ft_oneof ft_name negb andb]. cbn [go_base_types In] in Hn. repeat destruct Hn as [<-|Hn]; try reflexivity. contradiction. }
  destruct (field_part _ _ _ _ _ _ _ _ _ _ _ _ Hi Hb Hnd H Hp Hpl) as (r0 & _ & _ & Hrest).
  destruct Hrest as (r1 & e1 & r2 & e2 & Ed & E1 & E2); [rewrite Hl; discriminate|]. unfold decode_field in Ed. set (f := new_hfield (sm_name m) p) in *.
  change (hf_loc f) with (pm_loc p) in Ed. rewrite Hl in Ed. change (str_eqb (T "query") (T "path")) with false in Ed. cbn iota in Ed. change (hf_query f) with (name_of p) in Ed.
  fold (query_texts h (name_of p)) in Ed. rewrite Eq in Ed. apply assign_ok in Ed. destruct Ed as (v & w & Ev & Ew & ->).
  destruct (table_base n Hn) as (q & Es).
  assert (Ec : exists nw ck, hf_conv f = CvRepeated (Some q) nw ck).
  { unfold f, new_hfield, field_shape. rewrite Et. cbn [ft_name ft_star ft_msg ft_enum ft_map ft_array hf_conv]. assert (Hbt : is_go_base_type n = true) by (apply existsb_In; exact Hn).
    rewrite Hbt. unfold create_decode_convert. cbn [sh_enum sh_rep sh_base sh_gotype negb andb orb fst].
    assert (Hby : contains n (T "[]byte") = false) by (cbn [go_base_types In] in Hn; repeat destruct Hn as [<-|Hn]; try reflexivity; contradiction).
    rewrite Hby. cbn [negb]. rewrite Es. eexists. eexists. reflexivity. }
  destruct Ec as (nw & ck & Ec). unfold run_convert in Ev. rewrite Ec in Ev. cbn [length Nat.ltb Nat.leb] in Ev.
  destruct (parse_each K q e1 (s1 :: s2 :: rest)) as [l|] eqn:El; [|discriminate]. destruct (ck && e1); [discriminate|]. injection Ev as <- _.
  assert (Et2 : hf_tconv f = TcVar).
  { unfold f, new_hfield, field_shape. rewrite Et. reflexivity. }
  rewrite Et2 in Ew. cbn [run_tconv] in Ew. injection Ew as <-. exists l. split; [exact (parse_each_reads K n q Es e1 _ l El)|]. rewrite E2. apply upd_same.
Qed.

(** ** Oneofs in the query: two options given are refused; one given is set; none given leaves what the body had. *)
Definition given (h : http_request) (o : field) : Prop := query_texts h (fd_pbname o) <> None.
Lemma oneof_part : forall K ms i m sb b zero vars h r e p fs, nth_error (sm_bindings m) i = Some sb -> new_binding ms i m = Ret b -> NoDup (map camel_of (sb_params sb)) ->
  decode_request K zero b vars h = DOk r e -> In p (sb_params sb) -> ft_oneof (fd_type (pm_field p)) = Some fs -> 
  exists r0 xs, from_body K zero h r0 /\ Forall2 (fun o x => new_option ms (sm_name m) (pm_field p) o = Ret x) fs xs /\ (pm_loc p <> T "query" -> r (camel_of p) = r0 (camel_of p)) /\
   (pm_loc p = T "query" -> exists r1 e1 r2 e2, decode_oneof K (parse_query (rq_query h)) (mkHOneof (fd_name (pm_field p)) (pm_loc p) xs) r1 e1 = DOk r2 e2 /\ r1 (camel_of p) = r0 (camel_of p) /\ r (camel_of p) = r2 (camel_of p)).
Proof.
  intros K ms i m sb b zero vars h r e p fs Hi Hb Hnd H Hp Ef. destruct (opened _ _ _ _ _ _ _ _ _ _ _ Hi Hb H) as (os & r0 & r1 & e1 & Eo & Hr0 & E1 & E2).
  destruct (oneof_loop_camels _ _ _ _ Eo) as [C D]. destruct (D p fs Hp Ef) as (xs & Ex & Hin). exists r0, xs. split; [exact Hr0|]. split; [exact (proj2 (new_options_camel _ _ _ _ _ Ex))|].
  destruct (decode_oneofs_ok _ _ _ _ _ _ _ _ C (nodup_sub is_oneof _ Hnd) E2) as [_ B2]. destruct (B2 _ _ Hin) as [B3 B4].
  destruct (decode_fields_ok _ _ _ _ _ _ _ _ (camels_fields (sm_name m) _ Hnd) E1) as [A _].
  assert (Ek : r1 (camel_of p) = r0 (camel_of p)).
  { apply A. intro Kk. rewrite field_loop_plain, map_map in Kk. apply in_map_iff in Kk. destruct Kk as (p' & E & Hp'). apply filter_In in Hp'. destruct Hp' as [Hp' Ho].
    assert (p' = p) by (eapply same_param; eassumption). subst p'. unfold plain_field, is_oneof in Ho. rewrite Ef in Ho. discriminate. }
  split; [intro Hl; rewrite B3 by exact Hl; exact Ek|]. intro Hl. destruct (B4 Hl) as (ra & ea & rb & eb & P1 & P2 & P3). exists ra, ea, rb, eb. split; [exact P1|]. split; [congruence|exact P3].
Qed.
Lemma filter_options : forall ms meth fd (fs : list field) xs (P : str -> bool), Forall2 (fun o x => new_option ms meth fd o = Ret x) fs xs ->
  Forall2 (fun o x => new_option ms meth fd o = Ret x) (filter (fun o => P (fd_pbname o)) fs) (filter (fun x => P (hf_query x)) xs).
Proof.
  intros ms meth fd fs xs P H. induction H as [|o x fs xs Ho H IH]; [constructor|]. cbn [filter]. rewrite (proj1 (proj2 (new_option_camel _ _ _ _ _ Ho))).
  destruct (P (fd_pbname o)); [constructor; assumption|exact IH].
Qed.
Lemma option_hfield : forall ms meth fd o x, scalar_option o -> new_option ms meth fd o = Ret x ->
  exists q, scalar_table (ft_name (fd_type o)) = Some q /\ hf_conv x = CvScalar q /\ (q = PCopy \/ hf_check x = true)
  /\ forall v w, run_tconv x (hf_tconv x) v = Some w -> w = VOneof (Some (fd_name o, v)).
Proof.
  intros ms meth fd o x (n & mr & star & Et & Hn) H. unfold new_option in H. rewrite Et in *. cbn [ft_name ft_msg ft_enum ft_map ft_array ft_star] in *. injection H as <-.
  destruct (table_base n Hn) as (q & Eq). exists q. split; [exact Eq|]. cbn [hf_conv hf_check hf_tconv hf_name]. unfold create_decode_convert. cbn [sh_enum sh_rep sh_base sh_gotype negb andb orb].
  rewrite Eq. split; [destruct q; reflexivity|]. split; [destruct q; auto|]. intros v w. unfold create_decode_tconv. cbn [sh_rep sh_gotype sh_enum sh_base sh_star andb]. rewrite orb_false_r.
  destruct (existsb _ _); cbn [run_tconv]; intros [= <-]; reflexivity.
Qed.
Theorem c66_oneof : forall K ms i m sb b zero vars h r e p fs,
  nth_error (sm_bindings m) i = Some sb -> new_binding ms i m = Ret b -> NoDup (map camel_of (sb_params sb)) ->
  decode_request K zero b vars h = DOk r e -> In p (sb_params sb) -> ft_oneof (fd_type (pm_field p)) = Some fs -> Forall scalar_option fs -> pm_loc p = T "query" ->
  (exists r0, from_body K zero h r0 /\ (forall o, In o fs -> ~ given h o) /\ r (camel_of p) = r0 (camel_of p)) \/
  (exists before o after s rest v, fs = before ++ o :: after /\ (forall o', In o' (before ++ after) -> ~ given h o') /\ query_texts h (fd_pbname o) = Some (s :: rest) /\
     reads K (ft_name (fd_type o)) s v /\ r (camel_of p) = VOneof (Some (fd_name o, v))).
Proof.
  intros K ms i m sb b zero vars h r e p fs Hi Hb Hnd H Hp Ef Hs Hl. destruct (oneof_part _ _ _ _ _ _ _ _ _ _ _ _ _ Hi Hb Hnd H Hp Ef) as (r0 & xs & Hr0 & Hx & _ & Hq).
  destruct (Hq Hl) as (r1 & e1 & r2 & e2 & Ed & E1 & E2). unfold decode_oneof in Ed. cbn [ho_options] in Ed.
  set (P := fun k : str => match mget (parse_query (rq_query h)) k with Some _ => true | None => false end).
  assert (HP : forall k, P k = true <-> query_texts h k <> None).
  { intro k. unfold P, query_texts. destruct (mget _ k); split; congruence. }
  pose proof (filter_options _ _ _ _ _ P Hx) as HF.
  change (filter (fun x => match mget (parse_query (rq_query h)) (hf_query x) with Some _ => true | None => false end) xs) with (filter (fun x => P (hf_query x)) xs) in Ed.
  destruct (filter (fun x => P (hf_query x)) xs) as [|x [|x2 l]]; [| |discriminate].
  - left. exists r0. split; [exact Hr0|]. split; [|injection Ed as <- <-; congruence]. intros o Ho G. inversion HF as [Eq0|].
    assert (Ko : In o (filter (fun o => P (fd_pbname o)) fs)) by (apply filter_In; split; [exact Ho|apply HP; exact G]). rewrite <- Eq0 in Ko. destruct Ko.
  - right. inversion HF as [|o x' fo xo Ho Hn E3 E4]; subst. inversion Hn; subst.
    assert (Hin : In o (filter (fun o => P (fd_pbname o)) fs)) by (rewrite <- E3; left; reflexivity). apply filter_In in Hin. destruct Hin as [Hin Hg].
    apply in_split in Hin. destruct Hin as (before & after & ->). exists before, o, after.
    rewrite filter_app in E3. cbn [filter] in E3. rewrite Hg in E3.
    assert (Eb : filter (fun o => P (fd_pbname o)) before = [] /\ filter (fun o => P (fd_pbname o)) after = []).
    { destruct (filter (fun o => P (fd_pbname o)) before) as [|z zs]; cbn [app] in E3; [injection E3 as E3; auto|]. injection E3 as _ E3. destruct zs; discriminate. }
    assert (Hno : forall o', In o' (before ++ after) -> ~ given h o').
    { intros o' Ho' G. apply HP in G. apply in_app_or in Ho'. destruct Eb as [Eb Ea].
      destruct Ho' as [Ho'|Ho']; [assert (Kk : In o' (filter (fun o => P (fd_pbname o)) before)) by (apply filter_In; auto); rewrite Eb in Kk; destruct Kk|].
      assert (Kk : In o' (filter (fun o => P (fd_pbname o)) after)) by (apply filter_In; auto); rewrite Ea in Kk; destruct Kk. }
    destruct (new_option_camel _ _ _ _ _ Ho) as (Ec & Eqn & _). rewrite Eqn in Ed. fold (query_texts h (fd_pbname o)) in Ed.
    destruct (query_texts h (fd_pbname o)) as [[|s rest]|] eqn:Eqt; try discriminate. rewrite Forall_forall in Hs. pose proof (Hs o ltac:(apply in_or_app; right; left; reflexivity)) as Hso.
    destruct (option_hfield _ _ _ _ _ Hso Ho) as (q & Etb & Econv & Hk & Ht). apply assign_ok in Ed. destruct Ed as (v & w & Ev & Ew & ->).
    exists s, rest, v. split; [reflexivity|]. split; [exact Hno|]. split; [reflexivity|]. split; [apply (parse_scalar_reads K _ q); [exact Etb|]; eapply run_scalar; eassumption|].
    rewrite E2, (Ht v w Ew), Ec. apply upd_same.
Qed.
Theorem c66_two_options : forall K ms i m sb b zero vars h p fs before o between o' after,
  nth_error (sm_bindings m) i = Some sb -> new_binding ms i m = Ret b -> NoDup (map camel_of (sb_params sb)) ->
  In p (sb_params sb) -> ft_oneof (fd_type (pm_field p)) = Some fs -> pm_loc p = T "query" ->
  fs = before ++ o :: between ++ o' :: after -> given h o -> given h o' -> forall r e, decode_request K zero b vars h <> DOk r e.
Proof.
  intros K ms i m sb b zero vars h p fs before o between o' after Hi Hb Hnd Hp Ef Hl -> G G' r e H.
  destruct (oneof_part _ _ _ _ _ _ _ _ _ _ _ _ _ Hi Hb Hnd H Hp Ef) as (r0 & xs & Hr0 & Hx & _ & Hq).
  destruct (Hq Hl) as (r1 & e1 & r2 & e2 & Ed & E1 & E2). unfold decode_oneof in Ed. cbn [ho_options] in Ed.
  set (P := fun k : str => match mget (parse_query (rq_query h)) k with Some _ => true | None => false end).
  assert (HP : forall k, query_texts h k <> None -> P k = true).
  { intros k. unfold P, query_texts. destruct (mget _ k); congruence. }
  pose proof (filter_options _ _ _ _ _ P Hx) as HF.
  change (filter (fun x => match mget (parse_query (rq_query h)) (hf_query x) with Some _ => true | None => false end) xs) with (filter (fun x => P (hf_query x)) xs) in Ed.
  rewrite filter_app in HF. cbn [filter] in HF. rewrite (HP _ G), filter_app in HF. cbn [filter] in HF. rewrite (HP _ G') in HF.
  assert (L : length (filter (fun x => P (hf_query x)) xs) >= 2).
  { assert (E : forall A B (R : A -> B -> Prop) l l', Forall2 R l l' -> length l = length l') by (intros A B R l l' F; induction F; cbn [length]; congruence).
    apply E in HF. rewrite <- HF, app_length. cbn [length]. rewrite app_length. cbn [length]. lia. }
  destruct (filter (fun x => P (hf_query x)) xs) as [|x [|x2 l]]; cbn [length] in L; [lia|lia|discriminate].
Qed.

(** ** The decoder is a program: it returns a request or an error, for the types protoc-gen-go writes, apart from the ones
    whose assignment has no type (optional 32-bit scalars and enums, C31) and repeated parameters of a path. *)
Definition decodable (enums : list str) (p : hparam) : Prop :=
  match ft_oneof (fd_type (pm_field p)) with
  | Some fs => Forall scalar_option fs
  | None => pm_loc p = T "body" \/ (protoc_type enums (fd_type (pm_field p)) /\ ~ narrow_optional (fd_type (pm_field p)) /\ (pm_loc p = T "path" -> ft_array (fd_type (pm_field p)) = false))
  end.
Lemma convert_runs : forall K meth p enums arr s shadow err, protoc_type enums (fd_type (pm_field p)) -> ~ narrow_optional (fd_type (pm_field p)) ->
  (arr = None -> ft_array (fd_type (pm_field p)) = false) -> forall r, assign (new_hfield meth p) (run_convert K (new_hfield meth p) arr s shadow err) r <> DBroken.
Proof.
  intros K meth p enums arr s shadow err Ht Hno Harr r.
  assert (A : forall c, c <> CBroken -> (forall v, run_tconv (new_hfield meth p) (hf_tconv (new_hfield meth p)) v <> None) -> assign (new_hfield meth p) c r <> DBroken).
  { intros [v e| |] H1 H2; cbn [assign]; try congruence. specialize (H2 v). destruct (run_tconv _ _ v); congruence. }
  apply A; clear A.
  - unfold run_convert. destruct (hf_conv (new_hfield meth p)) as [q| | |each nw ck] eqn:Ec.
    + destruct q; try congruence; destruct (parse_scalar K _ s); try congruence; destruct (hf_check _); congruence.
    + exfalso. unfold new_hfield, field_shape in Ec. cbn [hf_conv] in Ec. unfold create_decode_convert in Ec. cbn [sh_enum sh_rep sh_base sh_gotype] in Ec.
      destruct Ht as [n o Hn|n Hn|n i o Hi Hn|n i Hi Hn|n mr Hn|n mr Hn|n a Hn|n Hn]; cbn [ft_enum ft_msg ft_map ft_name ft_array negb andb orb] in Ec; try discriminate.
      * assert (Hbt : is_go_base_type n = true) by (apply existsb_In; exact Hn). rewrite Hbt in Ec. cbn [negb orb] in Ec. destruct (table_base n Hn) as (q & Eq). rewrite Eq in Ec. destruct q; discriminate.
      * rewrite orb_true_r in Ec. discriminate.
      * assert (Hbt : is_go_base_type n = false) by (destruct (is_go_base_type n) eqn:Eb; [exfalso; apply Hn; apply existsb_In; exact Eb|reflexivity]). rewrite Hbt in Ec. cbn [negb orb] in Ec. destruct a; discriminate.
      * rewrite orb_true_r in Ec. discriminate.
    + destruct (negb _); [congruence|]. destruct (str_eqb _ _); [congruence|]. destruct (js_dec _ _ _ _); congruence.
    + destruct each as [q|].
      * destruct arr as [arr|].
        -- destruct (Nat.ltb 1 (length arr)); [destruct (parse_each _ _ _ _); [destruct (ck && err)|]; congruence|]. cbv zeta. repeat match goal with |- context [match json_slice K q ?x with _ => _ end] => destruct (json_slice K q x) end; try congruence; destruct ck; congruence.
        -- exfalso. specialize (Harr eq_refl). unfold new_hfield, field_shape in Ec. cbn [hf_conv] in Ec. rewrite Harr in Ec. unfold create_decode_convert in Ec. cbn [sh_enum sh_rep sh_base sh_gotype negb] in Ec.
           destruct (_ && true); [discriminate|]. destruct (_ || false); [discriminate|]. destruct (scalar_table _) as [[]|]; discriminate.
      * destruct (js_dec _ _ _ _); [congruence|destruct ck; congruence].
  - intro v. unfold new_hfield. cbn [hf_tconv]. unfold create_decode_tconv, field_shape. cbn [sh_rep sh_gotype sh_enum sh_base sh_star].
    destruct (ft_array (fd_type (pm_field p))) eqn:Ea; [discriminate|].
    match goal with |- context [?a && ft_star ?t] => destruct (a && ft_star t) eqn:E1 end; match goal with |- context [existsb ?x ?y || ?z] => destruct (existsb x y || z) eqn:E2 end; try discriminate.
    exfalso. apply Hno. apply andb_true_iff in E1. destruct E1 as [Eb Es]. split; [exact Ea|]. split; [exact Es|]. apply orb_true_iff in E2. destruct E2 as [E2|E2].
    + right. apply existsb_In in E2. cbn [In] in *. tauto.
    + left. destruct (ft_enum _); [discriminate|discriminate].
Qed.
Theorem c66_runs : forall K ms enums i m sb b zero vars h, nth_error (sm_bindings m) i = Some sb -> new_binding ms i m = Ret b -> Forall (decodable enums) (sb_params sb) ->
  decode_request K zero b vars h <> DBroken.
Proof.
  intros K ms enums i m sb b zero vars h Hi Hb Hd. unfold new_binding in Hb. rewrite Hi in Hb. destruct (oneof_loop ms (sm_name m) (sb_params sb)) as [os| |] eqn:Eo; try discriminate.
  injection Hb as <-. unfold decode_request. cbn [hb_fields hb_oneofs].
  assert (F : forall fs r e, (forall f, In f fs -> exists p, In p (sb_params sb) /\ plain_field p = true /\ f = new_hfield (sm_name m) p) -> decode_fields K vars (parse_query (rq_query h)) fs r e <> DBroken).
  { induction fs as [|f fs IH]; intros r e Hf; cbn [decode_fields]; [discriminate|]. assert (Hf' : forall f, In f fs -> exists p, In p (sb_params sb) /\ plain_field p = true /\ f = new_hfield (sm_name m) p) by (intros g Hg; apply Hf; right; exact Hg).
    destruct (str_eqb_spec (hf_loc f) (T "body")) as [Eb|Nb]; [apply IH; exact Hf'|].
    assert (D : decode_field K vars (parse_query (rq_query h)) f r e <> DBroken).
    { destruct (Hf f (or_introl eq_refl)) as (p & Hp & Hpl & ->). rewrite Forall_forall in Hd. specialize (Hd p Hp). unfold decodable in Hd. unfold plain_field, is_oneof in Hpl.
      destruct (ft_oneof _); [discriminate|]. destruct Hd as [Hd|(H1 & H2 & H3)]; [contradiction|]. unfold decode_field. change (hf_loc (new_hfield (sm_name m) p)) with (pm_loc p).
      destruct (str_eqb_spec (pm_loc p) (T "path")) as [Ep|Np]; [apply (convert_runs K (sm_name m) p enums); auto|].
      destruct (mget _ _) as [[|s arr]|]; try discriminate. apply (convert_runs K (sm_name m) p enums); auto; intro Q; discriminate Q. }
    destruct (decode_field K vars (parse_query (rq_query h)) f r e); [apply IH; exact Hf'|discriminate|congruence]. }
  assert (O : forall zs r e, (forall o x, In o zs -> In x (ho_options o) -> exists fd f, scalar_option f /\ new_option ms (sm_name m) fd f = Ret x) -> decode_oneofs K (parse_query (rq_query h)) zs r e <> DBroken).
  { induction zs as [|o os' IH]; intros r e Ho; cbn [decode_oneofs]; [discriminate|].
    assert (Ho' : forall o x, In o os' -> In x (ho_options o) -> exists fd f, scalar_option f /\ new_option ms (sm_name m) fd f = Ret x) by (intros g x Hg; apply Ho; right; exact Hg).
    destruct (str_eqb (ho_loc o) (T "query")); [|apply IH; exact Ho'].
    assert (D : decode_oneof K (parse_query (rq_query h)) o r e <> DBroken).
    { unfold decode_oneof. destruct (filter _ (ho_options o)) as [|x [|x2 l]] eqn:Ef; try discriminate. destruct (mget _ _) as [[|s arr]|]; try discriminate.
      assert (Hx : In x (ho_options o)) by (eapply proj1; apply filter_In; rewrite Ef; left; reflexivity).
      destruct (Ho o x (or_introl eq_refl) Hx) as (fd & f & Hs & En). destruct (option_hfield _ _ _ _ _ Hs En) as (q & Eq & Ec & Hk & _).
      assert (Ht : forall v, run_tconv x (hf_tconv x) v <> None).
      { intro v. destruct Hs as (n & mr & star & Et & Hn). unfold new_option in En. rewrite Et in En. cbn [ft_name ft_msg ft_enum ft_map ft_array ft_star] in En. injection En as <-.
        cbn [hf_tconv]. unfold create_decode_tconv. cbn [sh_rep sh_gotype sh_enum sh_base sh_star andb]. destruct (_ || _); discriminate. }
      unfold assign, run_convert. rewrite Ec. destruct q; try (destruct (run_tconv x (hf_tconv x) _) eqn:Et; [discriminate|exfalso; exact (Ht _ Et)]);
      (destruct (parse_scalar K _ s); [|destruct (hf_check x); [discriminate|]]); (destruct (run_tconv x (hf_tconv x) _) eqn:Et; [discriminate|exfalso; exact (Ht _ Et)]). }
    destruct (decode_oneof K (parse_query (rq_query h)) o r e); [apply IH; exact Ho'|discriminate|congruence]. }
  assert (HF : forall f, In f (field_loop (sm_name m) (sb_params sb)) -> exists p, In p (sb_params sb) /\ plain_field p = true /\ f = new_hfield (sm_name m) p).
  { intros f Hf. rewrite field_loop_plain in Hf. apply in_map_iff in Hf. destruct Hf as (p & <- & Hp). apply filter_In in Hp. exists p. split; [apply Hp|]. split; [apply Hp|reflexivity]. }
  assert (HO : forall o x, In o os -> In x (ho_options o) -> exists fd f, scalar_option f /\ new_option ms (sm_name m) fd f = Ret x).
  { intros o x Ho Hx. destruct (GenHttpProofs4.oneof_loop_in ms (sm_name m) (sb_params sb) os o Eo Ho) as (p & xs & fs & Hp & Efs & Ex & ->). cbn [ho_options] in Hx.
    destruct (new_options_in _ _ _ _ _ Ex x Hx) as (f & Hf & En). exists (pm_field p), f. split; [|exact En]. rewrite Forall_forall in Hd. specialize (Hd p Hp). unfold decodable in Hd. rewrite Efs in Hd.
    rewrite Forall_forall in Hd. apply Hd. exact Hf. }
  assert (G : forall r, match decode_fields K vars (parse_query (rq_query h)) (field_loop (sm_name m) (sb_params sb)) r false with
    | DOk r' err' => decode_oneofs K (parse_query (rq_query h)) os r' err' | x => x end <> DBroken).
  { intro r. specialize (F (field_loop (sm_name m) (sb_params sb)) r false HF). destruct (decode_fields _ _ _ _ _ _); [apply O; exact HO|discriminate|congruence]. }
  destruct (rq_body h); [apply G|]. destruct (pj_dec K _); [apply G|discriminate].
Qed.

(** ** Refuted: a text that is no list of strings is refused for a repeated string as well.  Its error is only remembered,
    and forgotten when a later field is read without one: the request is accepted with whatever the failed json.Unmarshal left. *)
Definition tags_ps : list hparam := [par (T "Tags") (T "tags") (repeated (T "string")) (T "query"); par (T "Nums") (T "nums") (repeated (T "int32")) (T "query")].
Definition bound (verb path : str) (ps : list hparam) : hbind := match new_binding [] 0 (meth1 verb path ps) with Ret b => b | _ => mkHBind [] [] [] [] [] [] end.
Theorem c66_repeated_strings_refuted : forall K zero vars,
  (exists r, decode_request K zero (bound (T "get") (T "/v1") tags_ps) vars (mkReq (T "GET") (T "/v1") (T "tags=a") []) = DOk r true) /\
  (exists r, decode_request K zero (bound (T "get") (T "/v1") tags_ps) vars (mkReq (T "GET") (T "/v1") (T "tags=a&nums=1") []) = DOk r false /\
     r (T "Tags") = js_junk K (T "string") (T "[a]") /\ r (T "Nums") = VList [VZ 1]).
Proof.
  intros K zero vars. split.
  - eexists. reflexivity.
  - eexists. split; [reflexivity|]. split; reflexivity.
Qed.

(** ** The hypotheses are met *)
Lemma ex_bound : new_binding [] 0 (meth1 (T "get") ex_path ex_ps) = Ret (bound (T "get") ex_path ex_ps).
Proof. reflexivity. Qed.
Lemma ex_camels : NoDup (map camel_of ex_ps).
Proof. apply nodup_dec. reflexivity. Qed.
(** accepted *)
Example c66_accepted_case : exists r, decode_request K0 (fun _ => VNone) (bound (T "get") ex_path ex_ps) [(T "id", T "x"); (T "kind", T "+2")] (mkReq (T "GET") (T "/v1/x/of/2") (T "nums=1&nums=2&a=T&opt=") []) = DOk r false
  /\ r (T "Kind") = VZ 2 /\ r (T "Nums") = VList [VZ 1; VZ 2] /\ r (T "Choice") = VOneof (Some (T "A", VB true)) /\ r (T "Opt") = VSome (VS []).
Proof. eexists. split; [reflexivity|]. auto. Qed.
(** refused: an enum that is no number, a number too large, two options *)
Example c66_refused_cases :
  let d vars q := decode_request K0 (fun _ => VNone) (bound (T "get") ex_path ex_ps) vars (mkReq (T "GET") (T "/v1/x/of/2") q []) in
  d [(T "id", T "x"); (T "kind", T "RED")] [] = DErr /\ d [(T "id", T "x"); (T "kind", T "2147483648")] [] = DErr /\ d [(T "id", T "x"); (T "kind", T "1")] (T "a=true&b=1") = DErr
  /\ d [(T "id", T "x"); (T "kind", T "1")] (T "nums=1&nums=x") = DErr.
Proof. vm_compute. auto. Qed.
Example c66_params : one_scalar (fd_type (pm_field (nth 1 ex_ps (nth 0 ex_ps (par [] [] (scalar []) []))))) (T "int32") /\ (forall v, ~ reads K0 (T "int32") (T "RED") v).
Proof.
  split; [apply OsEnum; discriminate|]. intros v H. assert (E : parse_scalar K0 (PInt 32) (T "RED") = Some v) by (apply (parse_scalar_reads K0 (T "int32")); [reflexivity|exact H]). discriminate.
Qed.
Example c66_decodable : Forall (decodable [T "K"]) ex_ps.
Proof.
  apply Forall_cons; [right; split; [apply PtScalar; unfold scalar_name, go_base_types; cbn [In]; auto 10|]; split; [intros (_ & H & _); discriminate|reflexivity]|].
  apply Forall_cons; [right; split; [apply PtEnum; [reflexivity|intro H; vm_compute in H; repeat destruct H as [H|H]; discriminate || contradiction]|]; split; [intros (_ & H & _); discriminate|reflexivity]|].
  apply Forall_cons; [right; split; [apply PtScalars; unfold scalar_name, go_base_types; cbn [In]; auto 10|]; split; [intros (H & _); discriminate|intro H; discriminate H]|].
  apply Forall_cons; [right; split; [apply PtScalar; unfold scalar_name, go_base_types; cbn [In]; auto 10|]; split; [|reflexivity]|].
  { intros (_ & _ & [H|H]); [apply H; reflexivity|]. vm_compute in H. repeat destruct H as [H|H]; discriminate || contradiction. }
  apply Forall_cons; [|apply Forall_nil]. unfold decodable. cbn [fd_type pm_field par ft_oneof].
  apply Forall_cons; [eexists; eexists; eexists; split; [reflexivity|unfold scalar_name, go_base_types; cbn [In]; auto 10]|].
  apply Forall_cons; [eexists; eexists; eexists; split; [reflexivity|unfold scalar_name, go_base_types; cbn [In]; auto 10]|apply Forall_nil].
Qed.
Print Assumptions c66_scalar.
Print Assumptions c66_refused.
Print Assumptions c66_repeated.
Print Assumptions c66_oneof.
Print Assumptions c66_two_options.
Print Assumptions c66_runs.
Print Assumptions c66_repeated_strings_refuted.
