(** Proofs about Rpc.v. *)
From Verif Require Import GoStr GoStrProofs SplitJoin GoMap Strs StrsProofs GenHttp Json JsonProofs JsonSpec JsonProofs2 Rpc RpcSpec.

(** ** Writing JSON *)
Section JInd.
  Variable Q : json -> Prop.
  Hypothesis H1 : Q JNull.
  Hypothesis H2 : forall b, Q (JBool b).
  Hypothesis H3 : forall s, Q (JNum s).
  Hypothesis H4 : forall s, Q (JStr s).
  Hypothesis H5 : forall l, Forall Q l -> Q (JArr l).
  Hypothesis H6 : forall l, Forall (fun kv => Q (snd kv)) l -> Q (JObj l).
  Fixpoint json_rect_nested (j : json) : Q j :=
    match j with
    | JNull => H1
    | JBool b => H2 b
    | JNum s => H3 s
    | JStr s => H4 s
    | JArr l => H5 l ((fix go l : Forall Q l := match l with [] => Forall_nil _ | x :: l' => Forall_cons _ (json_rect_nested x) (go l') end) l)
    | JObj l => H6 l ((fix go l : Forall (fun kv => Q (snd kv)) l := match l with [] => Forall_nil _ | x :: l' => Forall_cons _ (json_rect_nested (snd x)) (go l') end) l)
    end.
End JInd.

Lemma quote_quoted : forall t, Forall (fun c => (c < 1114112)%N) t -> quoted (json_quote t) t.
Proof.
  intros t Ht. unfold json_quote. assert (U : json_unquote (flat_map quote_rune t ++ [c_dquote]) = Some (t, [])) by (rewrite (unquote_quoted t []), (fix_valid t Ht); reflexivity).
  apply unquote_iff in U. destruct U as (b & E2 & Hb). exists b. split; [|exact Hb]. rewrite E2. reflexivity.
Qed.
Lemma write_value : forall j, good_json j -> value (jwrite j) j.
Proof.
  induction j as [| b | s | s | l IH | l IH] using json_rect_nested; intro G.
  - constructor.
  - destruct b; constructor.
  - constructor. exact G.
  - constructor. apply quote_quoted. exact G.
  - cbn [jwrite]. destruct l as [|x l]; [apply (VaArr0 []); constructor|]. apply VaArr. revert x IH G. induction l as [|y l IHl]; intros x IH G.
    + cbn [map join]. inversion IH as [|a b Hx _]; subst. destruct G as [G _]. rewrite <- (app_nil_r (jwrite x)). apply (EOne [] (jwrite x) []); [constructor|constructor|apply Hx; exact G].
    + inversion IH as [|a b Hx Hl]; subst. destruct G as [G Gl]. specialize (IHl y Hl Gl).
      change (join (T ",") (map jwrite (x :: y :: l))) with ([] ++ jwrite x ++ [] ++ T "," ++ join (T ",") (map jwrite (y :: l))).
      apply EMore; [constructor|constructor|apply Hx; exact G|exact IHl].
  - cbn [jwrite]. destruct l as [|[k x] l]; [apply (VaObj0 []); constructor|]. apply VaObj. revert k x IH G. induction l as [|[k2 y] l IHl]; intros k x IH G.
    + cbn [map join fst snd]. inversion IH as [|a b Hx _]; subst. destruct G as (Gk & G & _). rewrite <- (app_nil_r (jwrite x)).
      apply (MOne [] (json_quote k) k [] [] (jwrite x) []); try constructor; [apply quote_quoted; exact Gk|apply Hx; exact G].
    + inversion IH as [|a b Hx Hl]; subst. destruct G as (Gk & G & Gl). specialize (IHl k2 y Hl Gl).
      set (R := join (T ",") (map (fun kv : str * json => json_quote (fst kv) ++ T ":" ++ jwrite (snd kv)) ((k2, y) :: l))) in *.
      assert (E : join (T ",") (map (fun kv : str * json => json_quote (fst kv) ++ T ":" ++ jwrite (snd kv)) ((k, x) :: (k2, y) :: l)) = [] ++ json_quote k ++ [] ++ T ":" ++ [] ++ jwrite x ++ [] ++ T "," ++ R).
      { unfold R. change (join (T ",") (map (fun kv : str * json => json_quote (fst kv) ++ T ":" ++ jwrite (snd kv)) ((k, x) :: (k2, y) :: l))) with
          ((json_quote k ++ T ":" ++ jwrite x) ++ T "," ++ join (T ",") (map (fun kv : str * json => json_quote (fst kv) ++ T ":" ++ jwrite (snd kv)) ((k2, y) :: l))).
        rewrite <- !app_assoc. reflexivity. }
      rewrite E. apply MMore; try constructor; [apply quote_quoted; exact Gk|apply Hx; exact G|exact IHl].
Qed.
Lemma write_parse : forall j, good_json j -> parse_json (jwrite j) = Some j.
Proof. intros j G. apply parse_json_iff. exists [], (jwrite j), []. split; [constructor|]. split; [constructor|]. split; [rewrite app_nil_r; reflexivity|]. apply write_value. exact G. Qed.

(** ** Structs *)
Section Struct.
  Variable P : Type.
  Notation jf := (jfield P).
  Lemma find_name : forall (fs : list jf) f, NoDup (map (jf_name P) fs) -> In f fs -> find_field P fs (fun g => str_eqb (jf_name P f) (jf_name P g)) = Some f.
  Proof.
    induction fs as [|g fs IH]; intros f Hn Hi; [destruct Hi|]. destruct Hi as [->|Hi]; cbn [find_field].
    - rewrite str_eqb_refl. reflexivity.
    - inversion Hn; subst. destruct (str_eqb_spec (jf_name P f) (jf_name P g)) as [E|_]; [exfalso; apply H1; rewrite <- E; apply in_map; exact Hi|apply IH; assumption].
  Qed.
  Lemma find_none : forall (fs : list jf) p, (forall f, In f fs -> p f = false) -> find_field P fs p = None.
  Proof. induction fs as [|g fs IH]; intros p H; [reflexivity|]. cbn [find_field]. rewrite (H g (or_introl eq_refl)). apply IH. intros f Hf. apply H. right. exact Hf. Qed.
  Lemma zero_at : forall (fs : list jf) f, NoDup (map (jf_name P) fs) -> In f fs -> zero_msg P fs (jf_name P f) = zero_val P (jf_kind P f).
  Proof. intros fs f Hn Hi. unfold zero_msg. rewrite (find_name fs f Hn Hi). reflexivity. Qed.
  Lemma field_of_name : forall (fs : list jf) f, NoDup (map (jf_name P) fs) -> In f fs -> field_of P fs (jf_name P f) = Some f.
  Proof. intros fs f Hn Hi. unfold field_of. rewrite (find_name fs f Hn Hi). reflexivity. Qed.

  (** What is written of a message, and what reading it gives. *)
  Lemma enc_ok : forall all fs (m : msg P), NoDup (map (jf_name P) all) -> incl fs all -> NoDup (map (jf_name P) fs) ->
    Forall (fun f => Forall (fun c => (c < 1114112)%N) (jf_name P f)) fs ->
    Forall (fun f => match jf_kind P f with FPlain c => exists p, m (jf_name P f) = VPlain p /\ plain_ok c p | FOneof _ => m (jf_name P f) = VOne None end) fs ->
    exists l, enc_fields P fs m = Some l /\ good_json (JObj l) /\
      forall m0, exists m1, dec_members P all l m0 false = Some m1 /\
        (forall f, In f fs -> m0 (jf_name P f) = zero_val P (jf_kind P f) -> m1 (jf_name P f) = m (jf_name P f)) /\
        (forall x, ~ In x (map (jf_name P) fs) -> m1 x = m0 x).
  Proof.
    intros all fs m Ha. induction fs as [|f fs IH]; intros Hi Hn Hv Hm.
    - exists []. split; [reflexivity|]. split; [exact I|]. intro m0. exists m0. split; [reflexivity|]. split; [intros f []|reflexivity].
    - inversion Hn as [|x y Hx Hn']; subst. inversion Hv as [|x y Hv1 Hv']; subst. inversion Hm as [|x y Hm1 Hm']; subst.
      assert (Hi' : incl fs all) by (intros z Hz; apply Hi; right; exact Hz).
      destruct (IH Hi' Hn' Hv' Hm') as (l & El & Gl & Dl). assert (Fa : field_of P all (jf_name P f) = Some f) by (apply field_of_name; [exact Ha|apply Hi; left; reflexivity]).
      cbn [enc_fields]. rewrite El.
      assert (Step : forall j v, good_json j -> dec_field P f j = Some v -> m (jf_name P f) = v ->
        good_json (JObj ((jf_name P f, j) :: l)) /\ forall m0, exists m1, dec_members P all ((jf_name P f, j) :: l) m0 false = Some m1 /\
          (forall g, In g (f :: fs) -> m0 (jf_name P g) = zero_val P (jf_kind P g) -> m1 (jf_name P g) = m (jf_name P g)) /\ (forall x, ~ In x (map (jf_name P) (f :: fs)) -> m1 x = m0 x)).
      { intros j v Gj Dj Ev. split; [split; [exact Hv1|split; [exact Gj|exact Gl]]|]. intro m0. cbn [dec_members]. rewrite Fa, Dj.
        destruct (Dl (put P m0 (jf_name P f) v)) as (m1 & D1 & D2 & D3). exists m1. split; [exact D1|]. split.
        - intros g [<-|Hg] Hz; [rewrite (D3 _ Hx); unfold put; rewrite str_eqb_refl; symmetry; exact Ev|]. apply D2; [exact Hg|]. unfold put.
          destruct (str_eqb_spec (jf_name P g) (jf_name P f)) as [E|_]; [exfalso; apply Hx; rewrite <- E; apply in_map; exact Hg|exact Hz].
        - intros x Hx2. rewrite D3 by (intro K; apply Hx2; right; exact K). unfold put. destruct (str_eqb_spec x (jf_name P f)) as [E|_]; [exfalso; apply Hx2; left; symmetry; exact E|reflexivity]. }
      unfold enc_field. destruct (jf_kind P f) as [c|os] eqn:Ek.
      + destruct Hm1 as (p & Em & Hp). rewrite Em. unfold plain_ok in Hp. destruct (f_empty P c p) eqn:Ee.
        * exists l. split; [reflexivity|]. split; [exact Gl|]. intro m0. destruct (Dl m0) as (m1 & D1 & D2 & D3). exists m1. split; [exact D1|]. split.
          { intros g [<-|Hg] Hz; [rewrite (D3 _ Hx), Hz, Ek, Em; cbn [zero_val]; subst p; reflexivity|apply D2; assumption]. }
          { intros x Hx2. apply D3. intro K. apply Hx2. right. exact K. }
        * destruct Hp as (j & E1 & G1 & D1). rewrite E1. exists ((jf_name P f, j) :: l). split; [reflexivity|]. apply (Step j (VPlain p)); [exact G1| |exact Em]. unfold dec_field. rewrite Ek, D1. reflexivity.
      + rewrite Hm1. exists ((jf_name P f, JNull) :: l). split; [reflexivity|]. apply (Step JNull (VOne None)); [exact I| |exact Hm1]. unfold dec_field. rewrite Ek. reflexivity.
  Qed.
  Lemma round_trip : forall fs m, carried_by_json fs m -> exists d m1, marshal P fs m = Some d /\ unmarshal P fs d = Some m1 /\ same fs m1 m.
  Proof.
    intros fs m (Hn & Hv & Hm). destruct (enc_ok fs fs m Hn (incl_refl _) Hn Hv Hm) as (l & El & Gl & Dl). destruct (Dl (zero_msg P fs)) as (m1 & D1 & D2 & _).
    exists (jwrite (JObj l)), m1. unfold marshal. rewrite El. split; [reflexivity|]. unfold unmarshal. rewrite (write_parse _ Gl). split; [exact D1|].
    intros f Hf. apply D2; [exact Hf|]. apply zero_at; assumption.
  Qed.

  (** The reply of an error. *)
  Lemma err_parse : forall t, parse_json (err_reply t) = Some (JObj [(T "err", JStr (map fix_rune t))]).
  Proof.
    intros t. assert (Q : quoted (json_quote t) (map fix_rune t)).
    { unfold json_quote. pose proof (unquote_quoted t []) as U. apply unquote_iff in U. destruct U as (b & E2 & Hb). exists b. split; [|exact Hb]. rewrite E2. reflexivity. }
    apply parse_json_iff. exists [], (err_reply t), []. split; [constructor|]. split; [constructor|]. split; [rewrite app_nil_r; reflexivity|].
    unfold err_reply. cbn [jwrite map join fst snd]. apply VaObj. rewrite <- (app_nil_r (json_quote t)). apply (MOne [] (json_quote (T "err")) (T "err") [] [] (json_quote t) []); try constructor; [|exact Q].
    apply quote_quoted. apply Forall_forall. intros c Hc. vm_compute in Hc. repeat destruct Hc as [<-|Hc]; reflexivity || contradiction.
  Qed.
  Lemma err_read : forall (rs : list jf) t, unmarshal P rs (err_reply t) =
    match field_of P rs (T "err") with
    | None => Some (zero_msg P rs)
    | Some f => match dec_field P f (JStr (map fix_rune t)) with Some v => Some (put P (zero_msg P rs) (jf_name P f) v) | None => None end
    end.
  Proof.
    intros rs t. unfold unmarshal. rewrite (err_parse t). cbn [dec_members]. destruct (field_of P rs (T "err")) as [f|]; [|reflexivity]. destruct (dec_field P f (JStr (map fix_rune t))); reflexivity.
  Qed.
  (** Messages with a set oneof are written, but not read. *)
  Lemma dec_bad : forall all l m, dec_members P all l m true = None.
  Proof. intros all. induction l as [|[k j] l IH]; intro m; [reflexivity|]. cbn [dec_members]. destruct (field_of P all k) as [f|]; [|apply IH]. destruct (dec_field P f j); apply IH. Qed.
  Lemma dec_refuses : forall all l m b k j f, In (k, j) l -> field_of P all k = Some f -> dec_field P f j = None -> dec_members P all l m b = None.
  Proof.
    intros all. induction l as [|[k0 j0] l IH]; intros m b k j f Hi Hf Hd; [destruct Hi|]. cbn [dec_members]. destruct Hi as [E|Hi].
    - injection E as -> ->. rewrite Hf, Hd. apply dec_bad.
    - destruct (field_of P all k0) as [g|]; [|exact (IH m b k j f Hi Hf Hd)]. destruct (dec_field P g j0); exact (IH _ _ k j f Hi Hf Hd).
  Qed.
  Lemma enc_good : forall fs m l, writable fs m -> enc_fields P fs m = Some l -> good_json (JObj l).
  Proof.
    induction fs as [|f fs IH]; intros m l Hw H; [injection H as <-; exact I|]. cbn [enc_fields] in H.
    assert (Hfs : writable fs m) by (intros g Hg; apply Hw; right; exact Hg).
    destruct (enc_field P f (m (jf_name P f))) as [o|] eqn:Ef; [|discriminate]. destruct (enc_fields P fs m) as [l'|] eqn:El; [|destruct o; discriminate].
    specialize (IH m l' Hfs El). destruct (Hw f (or_introl eq_refl)) as [Hn Hj]. destruct o as [j|]; [|injection H as <-; exact IH]. injection H as <-. split; [exact Hn|]. split; [exact (Hj j Ef)|exact IH].
  Qed.
  Lemma enc_member : forall fs m l f os n p, enc_fields P fs m = Some l -> In f fs -> jf_kind P f = FOneof os -> m (jf_name P f) = VOne (Some (n, p)) ->
    exists j, In (jf_name P f, JObj [(n, j)]) l.
  Proof.
    induction fs as [|g fs IH]; intros m l f os n p H Hi Hk Hm; [destruct Hi|]. cbn [enc_fields] in H.
    destruct (enc_field P g (m (jf_name P g))) as [o|] eqn:Ef; [|discriminate]. destruct (enc_fields P fs m) as [l'|] eqn:El; [|destruct o; discriminate].
    destruct Hi as [->|Hi].
    - unfold enc_field in Ef. rewrite Hk, Hm in Ef. destruct (find (fun o => str_eqb (fst o) n) os) as [o'|]; [|discriminate]. destruct (f_enc P (snd o') p) as [j'|]; [|discriminate].
      injection Ef as <-. injection H as <-. exists j'. left. reflexivity.
    - destruct (IH m l' f os n p El Hi Hk Hm) as (j & Hj). exists j. destruct o; injection H as <-; [right|]; exact Hj.
  Qed.
  Lemma oneof_refused : forall fs m d, NoDup (map (jf_name P) fs) -> writable fs m -> oneof_set fs m -> marshal P fs m = Some d -> unmarshal P fs d = None.
  Proof.
    intros fs m d Hn Hw (f & os & n & p & Hi & Hk & Hm) H. unfold marshal in H. destruct (enc_fields P fs m) as [l|] eqn:El; [|discriminate].
    assert (Ed : d = jwrite (JObj l)) by congruence. subst d. unfold unmarshal. rewrite (write_parse _ (enc_good fs m l Hw El)). destruct (enc_member fs m l f os n p El Hi Hk Hm) as (j & Hj).
    apply (dec_refuses fs l _ _ (jf_name P f) (JObj [(n, j)]) f Hj); [apply field_of_name; assumption|]. unfold dec_field. rewrite Hk. reflexivity.
  Qed.
  Lemma no_err_field : forall (rs : list jf), (forall f, In f rs -> ~ named_err f) -> field_of P rs (T "err") = None.
  Proof.
    intros rs H. unfold field_of. rewrite !find_none; [reflexivity| |]; intros f Hf; apply str_eqb_neq; intro K; apply (H f Hf); unfold named_err.
    - change (to_lower (T "err")) with (T "err") in K. symmetry. exact K.
    - rewrite <- K. reflexivity.
  Qed.
End Struct.

(** ** Names *)
Lemma last_unique : forall (c : N) a b a' b', ~ In c b -> ~ In c b' -> a ++ c :: b = a' ++ c :: b' -> a = a' /\ b = b'.
Proof.
  intros c. induction a as [|x a IH]; intros b a' b' Hb Hb' E; destruct a' as [|y a']; cbn [app] in E.
  - injection E as E. auto.
  - injection E as _ E. exfalso. apply Hb. rewrite E. apply in_or_app. right. left. reflexivity.
  - injection E as _ E. exfalso. apply Hb'. rewrite <- E. apply in_or_app. right. left. reflexivity.
  - injection E as -> E. destruct (IH b a' b' Hb Hb' E) as [-> ->]. auto.
Qed.
Lemma cut_last_at : forall a b, ~ In c_slash b -> cut_last (a ++ c_slash :: b) = Some (a, b).
Proof.
  intros a b Hb. induction a as [|x a IH].
  - cbn [app cut_last]. assert (E : cut_last b = None); [|rewrite E, N.eqb_refl; reflexivity]. clear - Hb. induction b as [|y b IH]; [reflexivity|]. cbn [cut_last].
    rewrite IH by (intro K; apply Hb; right; exact K). destruct (N.eqb_spec y c_slash) as [->|_]; [exfalso; apply Hb; left; reflexivity|reflexivity].
  - cbn [app cut_last]. rewrite IH. reflexivity.
Qed.
Lemma dispatch_path : forall reg p s m, ~ In c_slash m -> grpc_dispatch reg (grpc_path p s m) =
  match find (fun r => str_eqb (rg_service r) (p ++ T "." ++ s)) reg with
  | Some r => if existsb (str_eqb m) (rg_methods r) then Some (p ++ T "." ++ s, m) else None
  | None => None
  end.
Proof.
  intros reg p s m H. unfold grpc_path, grpc_dispatch. change (T "/" ++ (p ++ T "." ++ s) ++ T "/" ++ m) with (c_slash :: (p ++ T "." ++ s) ++ c_slash :: m). cbn iota. change (N.eqb c_slash c_slash) with true. cbn iota.
  rewrite (cut_last_at (p ++ T "." ++ s) m H). reflexivity.
Qed.
Lemma find_reg : forall reg r, NoDup (map rg_service reg) -> In r reg -> find (fun x => str_eqb (rg_service x) (rg_service r)) reg = Some r.
Proof.
  induction reg as [|x reg IH]; intros r Hn Hi; [destruct Hi|]. inversion Hn; subst. cbn [find]. destruct Hi as [->|Hi]; [rewrite str_eqb_refl; reflexivity|].
  destruct (str_eqb_spec (rg_service x) (rg_service r)) as [E|_]; [exfalso; apply H1; rewrite E; apply in_map; exact Hi|apply IH; assumption].
Qed.
