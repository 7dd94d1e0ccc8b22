(** C69: what the generated client reports for any response that is no success. *)
From Verif Require Import GoStr GoStrProofs GoMap Decimals GenHttp Json JsonProofs JsonSpec JsonProofs2 ErrorHop.

(** The model of encoding/json reads exactly the texts of the grammar, as what they mean ... *)
Theorem c69_json : forall s v, parse_json s = Some v <-> json_text s v.
Proof. exact parse_json_iff. Qed.
Print Assumptions c69_json.
(** ... which is one value at most. *)
Theorem c69_one_meaning : forall s v w, json_text s v -> json_text s w -> v = w.
Proof. intros s v w H1 H2. apply parse_json_iff in H1, H2. congruence. Qed.
(** What the server writes is a JSON text for the error. *)
Theorem c69_written : forall s, Forall (fun c => (c < 1114112)%N) s -> json_text (marshal_error s) (JObj [(T "error", JStr s)]).
Proof.
  intros s Hs. apply parse_json_iff. pose proof (error_round_trip s) as E. rewrite (fix_valid s Hs) in E. unfold unmarshal_error in E.
  destruct (parse_json (marshal_error s)) as [v|] eqn:Ep; [|discriminate]. f_equal.
  assert (P : parse_json (marshal_error s) = Some (JObj [(T "error", JStr s)])); [|congruence]. apply parse_json_iff. exists [], (marshal_error s), []. split; [constructor|]. split; [constructor|].
  split; [cbn [app]; rewrite app_nil_r; reflexivity|]. unfold marshal_error.
  assert (Q : forall t, Forall (fun c => (c < 1114112)%N) t -> quoted (json_quote t) t).
  { intros t Ht. unfold json_quote. assert (U : json_unquote (flat_map quote_rune t ++ [c_dquote]) = Some (t, [])) by (rewrite (unquote_quoted t []), (fix_valid t Ht); reflexivity).
    apply unquote_iff in U. destruct U as (b & E2 & Hb). exists b. split; [|exact Hb]. rewrite E2. reflexivity. }
  change (T "{" ++ json_quote (T "error") ++ T ":" ++ json_quote s ++ T "}") with (T "{" ++ (json_quote (T "error") ++ T ":" ++ json_quote s ++ T "}")).
  replace (json_quote (T "error") ++ T ":" ++ json_quote s ++ T "}") with (([] ++ json_quote (T "error") ++ [] ++ T ":" ++ [] ++ json_quote s ++ []) ++ T "}").
  - apply VaObj. apply MOne; try constructor.
    + apply Q. apply Forall_forall. intros c Hc. vm_compute in Hc. repeat destruct Hc as [<-|Hc]; reflexivity || contradiction.
    + apply Q. exact Hs.
  - cbn [app]. rewrite app_nil_r, <- !app_assoc. reflexivity.
Qed.
Print Assumptions c69_written.

Lemma store_iff : forall l cur m, store_error l cur false = Some m <->
  (forall k v, In (k, v) l -> called_error k -> v = JNull \/ exists s, v = JStr s) /\
  ((exists a k b, l = a ++ (k, JStr m) :: b /\ called_error k /\ forall k' v, In (k', v) b -> called_error k' -> v = JNull)
   \/ m = cur /\ forall k v, In (k, v) l -> called_error k -> v = JNull).
Proof.
  assert (B : forall l cur, store_error l cur true = None).
  { induction l as [|[k v] l IH]; intro cur; [reflexivity|]. cbn [store_error]. destruct (str_eqb (to_lower k) (T "error")); [|apply IH]. destruct v; apply IH. }
  induction l as [|[k v] l IH]; intros cur m.
  - cbn [store_error]. split.
    + intro H. injection H as <-. split; [intros ? ? []|]. right. split; [reflexivity|intros ? ? []].
    + intros [_ [(a & k & b & E & _)|[-> _]]]; [destruct a; discriminate|reflexivity].
  - cbn [store_error]. destruct (str_eqb (to_lower k) (T "error")) eqn:Ek.
    + apply str_eqb_eq in Ek. assert (Bad : (forall s, v <> JStr s) -> v <> JNull -> ~ (forall k0 v0, In (k0, v0) ((k, v) :: l) -> called_error k0 -> v0 = JNull \/ exists s, v0 = JStr s)).
      { intros H1 H2 H. destruct (H k v (or_introl eq_refl) Ek) as [K|(s & K)]; [exact (H2 K)|exact (H1 s K)]. }
      destruct v as [|bb|n|s|ll|ll]; try (rewrite B; split; [discriminate|]; intros [H _]; exfalso; exact (Bad ltac:(discriminate) ltac:(discriminate) H)).
      * rewrite IH. split.
        { intros [H1 H2]. split; [intros k0 v0 [E|Hi] He; [left; congruence|exact (H1 k0 v0 Hi He)]|]. destruct H2 as [(a & k1 & b & -> & Hc & Hn)|[-> Hn]].
          - left. exists ((k, JNull) :: a), k1, b. split; [reflexivity|]. split; assumption.
          - right. split; [reflexivity|]. intros k0 v0 [E|Hi] He; [congruence|exact (Hn k0 v0 Hi He)]. }
        { intros [H1 H2]. split; [intros k0 v0 Hi He; exact (H1 k0 v0 (or_intror Hi) He)|]. destruct H2 as [(a & k1 & b & E & Hc & Hn)|[-> Hn]].
          - destruct a as [|x a]; [cbn [app] in E; congruence|]. cbn [app] in E. injection E as _ ->. left. exists a, k1, b. split; [reflexivity|]. split; assumption.
          - right. split; [reflexivity|]. intros k0 v0 Hi He. exact (Hn k0 v0 (or_intror Hi) He). }
      * rewrite IH. split.
        { intros [H1 H2]. split; [intros k0 v0 [E|Hi] He; [right; exists s; congruence|exact (H1 k0 v0 Hi He)]|]. left. destruct H2 as [(a & k1 & b & -> & Hc & Hn)|[-> Hn]].
          - exists ((k, JStr s) :: a), k1, b. split; [reflexivity|]. split; assumption.
          - exists [], k, l. split; [reflexivity|]. split; [exact Ek|exact Hn]. }
        { intros [H1 H2]. split; [intros k0 v0 Hi He; exact (H1 k0 v0 (or_intror Hi) He)|]. destruct H2 as [(a & k1 & b & E & Hc & Hn)|[-> Hn]].
          - destruct a as [|x a]; cbn [app] in E; [injection E as -> -> ->; right; split; [reflexivity|exact Hn]|]. injection E as _ ->. left. exists a, k1, b. split; [reflexivity|]. split; assumption.
          - specialize (Hn k (JStr s) (or_introl eq_refl) Ek). discriminate. }
    + assert (Nk : ~ called_error k) by (intro K; unfold called_error in K; rewrite K in Ek; discriminate). rewrite IH. split.
      * intros [H1 H2]. split; [intros k0 v0 [E|Hi] He; [injection E as <- <-; contradiction|exact (H1 k0 v0 Hi He)]|]. destruct H2 as [(a & k1 & b & -> & Hc & Hn)|[-> Hn]].
        { left. exists ((k, v) :: a), k1, b. split; [reflexivity|]. split; assumption. }
        { right. split; [reflexivity|]. intros k0 v0 [E|Hi] He; [injection E as <- <-; contradiction|exact (Hn k0 v0 Hi He)]. }
      * intros [H1 H2]. split; [intros k0 v0 Hi He; exact (H1 k0 v0 (or_intror Hi) He)|]. destruct H2 as [(a & k1 & b & E & Hc & Hn)|[-> Hn]].
        { destruct a as [|x a]; cbn [app] in E; [injection E as -> _ _; contradiction|]. injection E as _ ->. left. exists a, k1, b. split; [reflexivity|]. split; assumption. }
        { right. split; [reflexivity|]. intros k0 v0 Hi He. exact (Hn k0 v0 (or_intror Hi) He). }
Qed.
Theorem c69_error_in : forall body m, unmarshal_error body = Some m <-> error_in body m.
Proof.
  intros body m. unfold unmarshal_error, error_in. split.
  - destruct (parse_json body) as [v|] eqn:E; [|discriminate]. apply parse_json_iff in E. destruct v as [|b|n|s|l|l]; try discriminate.
    + intro H. injection H as <-. left. split; [exact E|reflexivity].
    + intro H. right. exists l. split; [exact E|]. apply store_iff. exact H.
  - intros [[H ->]|(l & H & Hm)]; apply parse_json_iff in H; rewrite H; [reflexivity|]. apply store_iff. exact Hm.
Qed.
Print Assumptions c69_error_in.

(** The client's report of any response whose status is not 200: the status and the error in the body, or the beginning of a
    body that has none. *)
Definition report (status : Z) (text : str) : str := T "status code: '" ++ itoa status ++ T "': " ++ text.
Theorem c69_report : forall Resp pj_unmarshal r, rs_status r <> 200%Z ->
  (forall m, error_in (rs_body r) m -> decode_response Resp pj_unmarshal r = (None, Some (report (rs_status r) m))) /\
  ((forall m, ~ error_in (rs_body r) m) -> exists start rest, rs_body r = start ++ rest /\ (rest <> [] -> N.of_nat (length start) = 8196%N) /\ (N.of_nat (length start) <= 8196)%N /\
     decode_response Resp pj_unmarshal r = (None, Some (report (rs_status r) (T "response body '" ++ start ++ T "': cannot parse non-json request body")))).
Proof.
  intros Resp pju r Hs. unfold decode_response, report. destruct (Z.eqb_spec (rs_status r) 200); [contradiction|]. cbn [negb]. unfold error_decoder. split.
  - intros m Hm. apply c69_error_in in Hm. rewrite Hm. reflexivity.
  - intro Hn. destruct (unmarshal_error (rs_body r)) as [m|] eqn:E; [apply c69_error_in in E; exfalso; exact (Hn m E)|].
    exists (firstn (N.to_nat 8196) (rs_body r)), (skipn (N.to_nat 8196) (rs_body r)). split; [symmetry; apply firstn_skipn|]. rewrite firstn_length. set (k := N.to_nat 8196).
    assert (Ek : N.of_nat k = 8196%N) by (unfold k; apply N2Nat.id). split; [|split; [rewrite <- Ek; lia|reflexivity]].
    intro H. assert (L : length (skipn k (rs_body r)) <> 0%nat) by (destruct (skipn k (rs_body r)); [congruence|discriminate]). rewrite skipn_length in L. rewrite <- Ek. lia.
Qed.
Print Assumptions c69_report.
(** A response with status 200 whose body is no response is an error too. *)
Theorem c69_bad_success : forall Resp pj_unmarshal r, rs_status r = 200%Z -> pj_unmarshal (rs_body r) = None ->
  exists t, decode_response Resp pj_unmarshal r = (None, Some t) /\ forall m, error_in (rs_body r) m -> t = m.
Proof.
  intros Resp pju r Hs Hp. unfold decode_response. rewrite Hs, Hp. eexists. split; [reflexivity|]. intros m Hm. apply c69_error_in in Hm. unfold error_decoder. rewrite Hm. reflexivity.
Qed.
(** Refuted: the report of a JSON body is its error.  An error that is no string is reported as a body that is no JSON; a body
    without an error gives an empty text. *)
Theorem c69_number_refuted : exists body l, json_text body (JObj l) /\ error_decoder body = T "response body '" ++ body ++ T "': cannot parse non-json request body".
Proof.
  exists (T "{""error"":5}"), [(T "error", JNum (T "5"))]. split; [apply parse_json_iff; vm_compute; reflexivity|vm_compute; reflexivity].
Qed.
Theorem c69_empty_refuted : error_in (T "{""message"":""boom""}") [] /\ error_in (T " null ") [].
Proof. split; apply c69_error_in; vm_compute; reflexivity. Qed.
(** Names in any case, the last string wins, null is passed over, and escapes, also of surrogate pairs, are read. *)
Example c69_ex : error_in (T "{ ""x"" : [ 1.5e-3 , {} , true ], ""Error"":""a"",""ERROR"" : ""b\n\ud83d\ude00\u0041"" , ""error"":null}") (T "b" ++ [10; 128512; 65]%N).
Proof. apply c69_error_in. vm_compute. reflexivity. Qed.
Example c69_ex2 : forall m, ~ error_in (T "{""error"":""a""} x") m.
Proof. intros m H. apply c69_error_in in H. vm_compute in H. discriminate. Qed.
