(** Proofs about the generated client and server: oneofs, the whole query, the path, the request. *)
From Coq Require Import Permutation.
From Verif Require Import GoStr GoStrProofs GoMap SplitJoin Decimals SvcTypes Strs HttpSpec HttpTransport HttpTypes HttpProofs HttpTypesProofs
  Url UrlProofs GenHttp GenHttpSpec GenHttpProofs.

Definition opt_list (l : list str) : option (list str) := match l with [] => None | _ => Some l end.
Definition or_nil (o : option (list str)) : list str := match o with Some l => l | None => [] end.

(** Each step writes only the values of [req]. *)
Definition toward (req r r' : request) : Prop := forall x, r' x = r x \/ r' x = req x.
Lemma toward_refl : forall req r, toward req r r.
Proof. intros req r x. left. reflexivity. Qed.
Lemma toward_trans : forall req a b c, toward req a b -> toward req b c -> toward req a c.
Proof. intros req a b c H1 H2 x. destruct (H2 x) as [E|E]; [rewrite E; apply H1|right; exact E]. Qed.
Lemma toward_keep : forall req a b x, toward req a b -> a x = req x -> b x = req x.
Proof. intros req a b x H E. destruct (H x) as [E2|E2]; congruence. Qed.
Lemma toward_upd : forall req r c, toward req r (upd r c (req c)).
Proof. intros req r c x. unfold upd. destruct (str_eqb_spec x c) as [->|]; auto. Qed.
Lemma upd_same : forall r c v, upd r c v c = v.
Proof. intros. unfold upd. rewrite str_eqb_refl. reflexivity. Qed.

Section R.
Variable K : codecs.

(** ** Oneofs *)
Lemma option_shape : forall ms meth fd o h n r star, fd_type o = mkFT n None None (Some r) None star false -> scalar_name n ->
  new_option ms meth fd o = Ret h ->
  hf_name h = fd_name o /\ hf_query h = fd_pbname o /\ hf_camel h = go_camel_case (fd_name fd) /\ hf_base h = true /\ hf_rep h = false
  /\ hf_gotype h = n
  /\ (forall p, scalar_table n = Some p -> hf_conv h = CvScalar p)
  /\ (forall v, run_tconv h (hf_tconv h) v = Some (VOneof (Some (fd_name o, v)))).
Proof.
  intros ms meth fd o h n r star Et Hn H. unfold new_option in H. rewrite Et in H. cbn [ft_name ft_enum ft_map ft_array ft_msg ft_star] in H.
  injection H as <-. cbn [hf_name hf_query hf_camel hf_base hf_rep hf_gotype hf_conv hf_tconv sh_base sh_rep sh_enum].
  split; [reflexivity|]. split; [reflexivity|]. split; [reflexivity|]. split; [reflexivity|]. split; [reflexivity|]. split; [reflexivity|]. split.
  - intros p Ep. unfold create_decode_convert. cbn [sh_enum sh_base sh_rep sh_gotype negb andb orb]. rewrite Ep. destruct p; reflexivity.
  - intro v. unfold create_decode_tconv. cbn [sh_enum sh_base sh_rep sh_gotype sh_star negb andb orb run_tconv].
    destruct (existsb _ _ || false); reflexivity.
Qed.
Lemma new_options_in : forall ms meth fd os xs, new_options ms meth fd os = Ret xs -> forall h, In h xs -> exists o, In o os /\ new_option ms meth fd o = Ret h.
Proof.
  induction os as [|o os IH]; intros xs H h Hh; cbn [new_options] in H; [injection H as <-; destruct Hh|].
  destruct (new_option ms meth fd o) as [x| |] eqn:E; try discriminate. destruct (new_options ms meth fd os) as [ys| |] eqn:E2; try discriminate.
  injection H as <-. destruct Hh as [<-|Hh]; [exists o; split; [left; reflexivity|exact E]|].
  destruct (IH ys eq_refl h Hh) as (o' & H1 & H2). exists o'. split; [right; exact H1|exact H2].
Qed.
Lemma new_options_names : forall ms meth fd os xs, new_options ms meth fd os = Ret xs -> Forall scalar_option os ->
  map hf_name xs = map fd_name os /\ map hf_query xs = map fd_pbname os.
Proof.
  induction os as [|o os IH]; intros xs H Hs; cbn [new_options] in H; [injection H as <-; split; reflexivity|].
  destruct (new_option ms meth fd o) as [x| |] eqn:E; try discriminate. destruct (new_options ms meth fd os) as [ys| |] eqn:E2; try discriminate.
  injection H as <-. inversion Hs as [|a l Ho Hos]; subst. destruct Ho as (n & r & star & Et & Hn).
  destruct (option_shape ms meth fd o x n r star Et Hn E) as (E3 & E4 & _). destruct (IH ys eq_refl Hos) as [E5 E6].
  cbn [map]. rewrite E3, E4, E5, E6. split; reflexivity.
Qed.

Lemma filter_one : forall (xs : list hfield) h (P : hfield -> bool), In h xs -> NoDup (map hf_name xs) ->
  P h = true -> (forall x, In x xs -> hf_name x <> hf_name h -> P x = false) -> filter P xs = [h].
Proof.
  induction xs as [|x xs IH]; intros h P Hin Hnd Hp Ho; [destruct Hin|]. cbn [map] in Hnd. inversion Hnd as [|a l Hx Hl]; subst. cbn [filter].
  destruct Hin as [<-|Hin].
  - rewrite Hp. f_equal. assert (E : forall ys, (forall y, In y ys -> P y = false) -> filter P ys = []).
    { induction ys as [|y ys IHy]; intro H; [reflexivity|]. cbn. rewrite (H y) by (left; reflexivity). apply IHy. intros z Hz. apply H. right. exact Hz. }
    apply E. intros y Hy. apply Ho; [right; exact Hy|]. intro Ey. apply Hx. rewrite <- Ey. apply in_map. exact Hy.
  - rewrite Ho; [|left; reflexivity|].
    + apply IH; [exact Hin|exact Hl|exact Hp|]. intros y Hy. apply Ho. right. exact Hy.
    + intro E. apply Hx. rewrite E. apply in_map. exact Hin.
Qed.

Lemma nonzero_is g v : nonzero g v -> is_zero g v = match v with VNone => true | VList [] => true | _ => false end.
Proof.
  destruct v as [z|b|f|s| |w|l|m|o]; cbn [nonzero is_zero]; intro H; try reflexivity.
  - apply Z.eqb_neq. exact H.
  - rewrite H. reflexivity.
  - destruct H as [H1 H2]. apply N.eqb_neq in H1. rewrite H1. apply N.eqb_neq. destruct (str_eqb g (T "float32")); exact H2.
  - destruct s; [contradiction|reflexivity].
Qed.
Lemma oneof_step : forall ms meth p os xs req, ft_oneof (fd_type (pm_field p)) = Some os -> NoDup (map fd_name os) ->
  Forall (fun o => scalar_option o /\ bytes (fd_pbname o)) os -> oneof_value K os (req (camel_of p)) ->
  new_options ms meth (pm_field p) os = Ret xs ->
  (forall h, In h xs -> exists l, option_values K req h = Some l /\ Forall bytes l /\ bytes (hf_query h))
  /\ forall q nm loc r, (forall h, In h xs -> mget q (hf_query h) = opt_list (or_nil (option_values K req h))) ->
     exists r', decode_oneof K q (mkHOneof nm loc xs) r false = DOk r' false /\ toward req r r'
       /\ (r' (camel_of p) = req (camel_of p) \/ unsent (req (camel_of p)) /\ r' = r).
Proof.
  intros ms meth p os xs req Eo Hnd Hos Hv Hx.
  assert (Hso : Forall scalar_option os) by (eapply Forall_impl; [|exact Hos]; intros a [H _]; exact H).
  destruct (new_options_names _ _ _ _ _ Hx Hso) as [Hn1 Hn2].
  (* what each option sends *)
  assert (Each : forall h, In h xs -> exists o n, In o os /\ hf_name h = fd_name o /\ hf_query h = fd_pbname o /\ hf_camel h = camel_of p
     /\ hf_base h = true /\ hf_rep h = false /\ hf_gotype h = n /\ ft_name (fd_type o) = n
     /\ (forall p, scalar_table n = Some p -> hf_conv h = CvScalar p) /\ (forall v, run_tconv h (hf_tconv h) v = Some (VOneof (Some (fd_name o, v)))) /\ bytes (fd_pbname o)).
  { intros h Hh. destruct (new_options_in _ _ _ _ _ Hx h Hh) as (o & Ho & E). rewrite Forall_forall in Hos. destruct (Hos o Ho) as [(n & r & star & Et & Hn) Hb].
    destruct (option_shape _ _ _ _ _ _ _ _ Et Hn E) as (A1 & A2 & A3 & A4 & A5 & A6 & A7 & A8). exists o, n. rewrite Et. auto 15. }
  inversion Hv as [E0|o v Ho Hsv Hz E0].
  - assert (Ov : forall h, In h xs -> option_values K req h = Some []).
    { intros h Hh. destruct (Each h Hh) as (o & n & _ & _ & _ & Ec & _). unfold option_values, get_option. rewrite Ec, <- E0. reflexivity. }
    split.
    + intros h Hh. exists []. split; [apply Ov; exact Hh|]. split; [apply Forall_nil|].
      destruct (Each h Hh) as (o & n & _ & _ & Eq & _ & _ & _ & _ & _ & _ & _ & Hb). rewrite Eq. exact Hb.
    + intros q nm loc r Hq. exists r. split; [|split; [apply toward_refl|right; split; [right; right; reflexivity|reflexivity]]].
      unfold decode_oneof. cbn [ho_options].
      assert (E : forall ys, (forall h, In h ys -> mget q (hf_query h) = None) -> filter (fun p => match mget q (hf_query p) with Some _ => true | None => false end) ys = []).
      { induction ys as [|y ys IHy]; intro H; [reflexivity|]. cbn. rewrite (H y) by (left; reflexivity). apply IHy. intros z Hz. apply H. right. exact Hz. }
      rewrite E; [reflexivity|]. intros h Hh. rewrite (Hq h Hh), (Ov h Hh). reflexivity.
  - destruct (scalar_rt K _ v Hsv) as (pp & Ep & Er & Hb & Hn & _).
    assert (Hsame : forall o2, In o2 os -> fd_name o2 = fd_name o -> o2 = o).
    { clear -Hnd Ho. intros o2 H2 E. induction os as [|a os IH]; [destruct Ho|]. cbn [map] in Hnd. inversion Hnd as [|x l Hx Hl]; subst.
      destruct Ho as [->|Ho], H2 as [->|H2]; [reflexivity|..].
      - destruct Hx. rewrite <- E. apply in_map. exact H2.
      - destruct Hx. rewrite E. apply in_map. exact Ho.
      - apply IH; assumption. }
    assert (Ov : forall h, In h xs -> option_values K req h = if str_eqb (hf_name h) (fd_name o) then Some [sprint K (hf_gotype h) v] else Some []).
    { intros h Hh. destruct (Each h Hh) as (o2 & n & Ho2 & En2 & _ & Ec & Eb & Erp & Eg & Et2 & _). unfold option_values, get_option. rewrite Ec, <- E0.
      rewrite Eb, Erp. destruct (str_eqb_spec (hf_name h) (fd_name o)) as [E|N1].
      - rewrite En2 in E. apply Hsame in E; [|exact Ho2]. subst o2. rewrite En2, str_eqb_refl, Eg, <- Et2, (nonzero_is _ _ Hz). destruct Hsv; reflexivity.
      - assert (N2 : str_eqb (fd_name o) (hf_name h) = false) by (apply str_eqb_neq; congruence). rewrite N2. reflexivity. }
    assert (Hh0 : exists h, In h xs /\ hf_name h = fd_name o).
    { assert (Hi : In (fd_name o) (map hf_name xs)) by (rewrite Hn1; apply in_map; exact Ho). apply in_map_iff in Hi. destruct Hi as (h & E & Hi). exists h. auto. }
    assert (Bys : forall h, In h xs -> hf_name h = fd_name o -> bytes (sprint K (hf_gotype h) v) /\ hf_gotype h = ft_name (fd_type o)).
    { intros h Hh E. destruct (Each h Hh) as (o2 & n & Ho2 & En2 & _ & _ & _ & _ & Eg & Et2 & _). rewrite En2 in E. apply Hsame in E; [|exact Ho2]. subst o2.
      rewrite Eg, <- Et2. auto. }
    split.
    + intros h Hh. rewrite (Ov h Hh). destruct (Each h Hh) as (o2 & n & Ho2 & En2 & Eq & _ & _ & _ & _ & _ & _ & _ & Hb2). rewrite Eq.
      destruct (str_eqb_spec (hf_name h) (fd_name o)) as [E|N1]; eexists; (split; [reflexivity|]); (split; [|exact Hb2]); [|apply Forall_nil].
      apply Forall_cons; [|apply Forall_nil]. apply Bys; assumption.
    + intros q nm loc r Hq. destruct Hh0 as (h & Hh & Eh). exists (upd r (camel_of p) (req (camel_of p))).
      split; [|split; [apply toward_upd|left; rewrite upd_same; symmetry; exact E0]].
      unfold decode_oneof. cbn [ho_options].
      assert (Hget : mget q (hf_query h) = Some [sprint K (hf_gotype h) v]).
      { rewrite (Hq h Hh), (Ov h Hh), Eh, str_eqb_refl. reflexivity. }
      rewrite (filter_one xs h).
      * rewrite Hget. destruct (Each h Hh) as (o2 & n & Ho2 & En2 & Eq & Ec & _ & _ & Eg & Et2 & Econv & Etc & _).
        assert (o2 = o) by (apply Hsame; congruence). subst o2. rewrite <- Et2 in Eg, Econv.
        unfold run_convert. rewrite (Econv pp Ep). rewrite Eg, Er.
        destruct pp; cbn [assign]; rewrite ?Etc, ?Ec, ?E0; try reflexivity.
        cbn [parse_scalar] in Er. injection Er as Er'. rewrite Er', E0. reflexivity.
      * exact Hh.
      * rewrite Hn1. exact Hnd.
      * rewrite Hget. reflexivity.
      * intros x Hx2 Nx. rewrite (Hq x Hx2), (Ov x Hx2). assert (N2 : str_eqb (hf_name x) (fd_name o) = false) by (apply str_eqb_neq; congruence). rewrite N2. reflexivity.
Qed.
End R.
