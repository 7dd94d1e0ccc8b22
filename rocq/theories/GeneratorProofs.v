(** Proofs about a generation run. *)
From Coq Require Import Permutation.
From Verif Require Import GoStr GoStrProofs GoMap Strs Handler SplitJoin Generator GeneratorSpec.

Lemma to_lower_idem : forall s, to_lower (to_lower s) = to_lower s.
Proof.
  intro s. unfold to_lower. rewrite map_map. apply map_ext. intro c. unfold lower1. destruct (is_upper c) eqn:E; [|rewrite E; reflexivity].
  destruct (is_upper (c + 32)) eqn:E2; [|reflexivity]. unfold is_upper in *. apply in_range_spec in E, E2. lia.
Qed.
Lemma has_prefix_app : forall p s, has_prefix (p ++ s) p = true.
Proof. induction p as [|c p IH]; intro s; [destruct s; reflexivity|]. cbn. rewrite N.eqb_refl. apply IH. Qed.
Lemma trim_suffix_app : forall s p, trim_suffix (s ++ p) p = s.
Proof.
  intros s p. unfold trim_suffix, has_suffix. rewrite rev_app_distr, has_prefix_app, app_length. replace (length s + length p - length p) with (length s) by lia.
  rewrite firstn_app, firstn_all, Nat.sub_diag, app_nil_r. reflexivity.
Qed.

(** ** The paths *)
Section Paths.
  Variable name : str.
  Let svc := to_lower name.
  Let actual t := template_path_to_actual t (to_lower name).
  Lemma actual_main : actual CmdServerPath = slashed (main_file svc).
  Proof.
    unfold actual, template_path_to_actual. rewrite to_lower_idem. fold svc. change (replace_all _ CmdServerPath (T "NAME") svc) with (T "cmd/" ++ svc ++ T "/main.go.tmpl").
    replace (T "cmd/" ++ svc ++ T "/main.go.tmpl") with ((T "cmd/" ++ svc ++ T "/main.go") ++ T ".tmpl") by (rewrite <- !app_assoc; reflexivity). rewrite trim_suffix_app. reflexivity.
  Qed.
  Lemma actual_client : actual CmdClientPath = slashed (client_file svc).
  Proof.
    unfold actual, template_path_to_actual. rewrite to_lower_idem. fold svc. change (replace_all _ CmdClientPath (T "NAME") svc) with (T "cmd/" ++ svc ++ T "-client/main.go.tmpl").
    replace (T "cmd/" ++ svc ++ T "-client/main.go.tmpl") with ((T "cmd/" ++ svc ++ T "-client/main.go") ++ T ".tmpl") by (rewrite <- !app_assoc; reflexivity). rewrite trim_suffix_app.
    unfold slashed, client_file, join. cbn [app]. rewrite <- app_assoc. reflexivity.
  Qed.
  Lemma actual_baron : actual BaronPath = T "baron/" ++ svc ++ T ".pb.baron.go".
  Proof.
    unfold actual, template_path_to_actual. rewrite to_lower_idem. fold svc. change (replace_all _ BaronPath (T "NAME") svc) with (T "baron/" ++ svc ++ T ".pb.baron.go.tmpl").
    replace (T "baron/" ++ svc ++ T ".pb.baron.go.tmpl") with ((T "baron/" ++ svc ++ T ".pb.baron.go") ++ T ".tmpl") by (rewrite <- !app_assoc; reflexivity). apply trim_suffix_app.
  Qed.
  Lemma actual_assets : map actual assets =
    [T "baron/" ++ svc ++ T ".pb.baron.go"; slashed (main_file svc); slashed (client_file svc); T "server/endpoints.go"; T "server/interrupt.go"; T "server/server.go"; T "server/wrapper.go";
     T "service/service.go"; T "service/service_methods.go"; T "service/wrapper.go"].
  Proof. unfold assets. cbn [map]. rewrite actual_main, actual_client, actual_baron. reflexivity. Qed.
  Lemma main_client : slashed (main_file svc) <> slashed (client_file svc).
  Proof.
    unfold slashed, main_file, client_file, join. intro H. apply app_inv_head, (app_inv_head [c_slash]) in H. rewrite <- app_assoc in H. apply app_inv_head in H. discriminate.
  Qed.
  Lemma actual_nodup : NoDup (map actual assets).
  Proof.
    rewrite actual_assets. pose proof main_client as H.
    constructor. { intro K. cbn [In] in K. repeat destruct K as [K|K]; discriminate || contradiction. }
    constructor. { intro K. cbn [In] in K. destruct K as [K|K]; [symmetry in K; contradiction|]. repeat destruct K as [K|K]; discriminate || contradiction. }
    constructor. { intro K. cbn [In] in K. repeat destruct K as [K|K]; discriminate || contradiction. }
    repeat (constructor; [intro K; vm_compute in K; repeat destruct K as [K|K]; discriminate || contradiction|]). constructor.
  Qed.
End Paths.

Section P.
  Variable upper : N -> bool.
  Variable tmpl : str -> data -> option bytes.
  Variable parse_go : bytes -> option (list decl).
  Variable print_go : list decl -> bytes.
  Variable format_source : bytes -> option bytes.
  Notation gokit_loop := (gokit_loop upper tmpl parse_go print_go format_source).
  Notation generate_gokit := (generate_gokit upper tmpl parse_go print_go format_source).
  Notation response := (response upper tmpl parse_go print_go format_source).
  Notation service_render := (service_render upper tmpl parse_go print_go format_source).
  Notation other_response := (other_response tmpl format_source).
  Notation finish := (finish format_source).
  Notation fmt := (format_code format_source).

  Section Loop.
    Variables (d : data) (prev : gomap bytes).
    Let actual t := template_path_to_actual t (to_lower (d_name d)).
    Lemma loop_facts : forall ts m res, gokit_loop d prev ts m res -> forall m', res = Some m' -> NoDup (map actual ts) -> NoDup (keys m) ->
      NoDup (keys m') /\ (forall p, ~ In p (map actual ts) -> mget m' p = mget m p) /\
      forall t, In t ts -> if is_excluded_path t then mget m' (actual t) = mget m (actual t)
        else (exists b, response t d (mget prev (actual t)) (GOk b) /\ mget m' (actual t) = Some b) \/
             (response t d (mget prev (actual t)) GIgnored /\ mget m' (actual t) = mget m (actual t)).
    Proof.
      induction 1 as [m|t ts m res He H IH|t ts m b res He Hr H IH|t ts m res He Hr H IH|t ts m g He Hr Hg]; intros m' E Hnd Hk; [injection E as ->|subst res|subst res|subst res|discriminate].
      - split; [exact Hk|]. split; [reflexivity|intros t []].
      - inversion Hnd as [|x y Hx Hy]; subst. destruct (IH m' eq_refl Hy Hk) as (I1 & I2 & I3). split; [exact I1|]. split; [intros p Hp; apply I2; intro K; apply Hp; right; exact K|].
        intros u [<-|Hu]; [rewrite He; apply I2; exact Hx|apply I3; exact Hu].
      - inversion Hnd as [|x y Hx Hy]; subst. fold (actual t) in *. destruct (IH m' eq_refl Hy (nodup_mset m (actual t) b Hk)) as (I1 & I2 & I3). split; [exact I1|].
        assert (Ho : forall p, p <> actual t -> mget (mset m (actual t) b) p = mget m p) by (intros p Hp; apply mget_mset_other; exact Hp).
        split. { intros p Hp. rewrite I2 by (intro K; apply Hp; right; exact K). apply Ho. intro K. apply Hp. left. symmetry. exact K. }
        intros u [<-|Hu]. { rewrite He. left. exists b. split; [exact Hr|]. rewrite I2 by exact Hx. apply mget_mset_same. }
        specialize (I3 u Hu). assert (Hn : actual u <> actual t) by (intro K; apply Hx; rewrite <- K; apply in_map; exact Hu). rewrite (Ho _ Hn) in I3. exact I3.
      - inversion Hnd as [|x y Hx Hy]; subst. destruct (IH m' eq_refl Hy Hk) as (I1 & I2 & I3). split; [exact I1|]. split; [intros p Hp; apply I2; intro K; apply Hp; right; exact K|].
        intros u [<-|Hu]; [rewrite He; right; split; [exact Hr|apply I2; exact Hx]|apply I3; exact Hu].
    Qed.
    (** Every template has its outcome in the result. *)
    Lemma gokit_facts : forall m, generate_gokit d prev (Some m) -> NoDup (keys m) /\ (forall p, ~ In p (map actual assets) -> mget m p = None) /\
      forall t, In t assets -> if is_excluded_path t then mget m (actual t) = None
        else (exists b, response t d (mget prev (actual t)) (GOk b) /\ mget m (actual t) = Some b) \/
             (response t d (mget prev (actual t)) GIgnored /\ mget m (actual t) = None).
    Proof.
      intros m (order & Hp & H). assert (Hnd : NoDup (map actual order)) by (eapply Permutation_NoDup; [apply Permutation_map, Permutation_sym; exact Hp|apply actual_nodup]).
      destruct (loop_facts _ _ _ H m eq_refl Hnd (NoDup_nil _)) as (I1 & I2 & I3). split; [exact I1|]. split.
      - intros p K. apply I2. intro K2. apply K. apply (Permutation_in p (Permutation_map actual Hp)). exact K2.
      - intros t Ht. apply I3. apply Permutation_sym in Hp. apply (Permutation_in t Hp Ht).
    Qed.
  End Loop.

  Lemma finish_not_ignored : forall o, finish o <> GIgnored.
  Proof. intros [b|]; discriminate. Qed.
  Lemma finish_ok : forall o b, finish o = GOk b <-> exists c, o = Some c /\ b = fmt c.
  Proof.
    intros [c|] b; cbn; split.
    - intros [= <-]. exists c. auto.
    - intros (c' & [= <-] & ->). reflexivity.
    - discriminate.
    - intros (c & K & _). discriminate.
  Qed.
  Lemma user_facts : forall d p t, In (p, t) (user_files (to_lower (d_name d)) (d_client d)) ->
    In t assets /\ is_excluded_path t = false /\ template_path_to_actual t (to_lower (d_name d)) = slashed p /\
    forall prev g, response t d prev g <-> g = finish (keep_or_make tmpl t d prev).
  Proof.
    intros d p t H. unfold user_files in H. cbn [app] in H.
    assert (Hc : (p, t) = (client_file (to_lower (d_name d)), CmdClientPath) /\ d_client d = true \/ In (p, t)
      [(main_file (to_lower (d_name d)), CmdServerPath); ([T "server"; T "endpoints.go"], ServerEndpointsPath); ([T "server"; T "interrupt.go"], ServerInterruptPath);
       ([T "server"; T "wrapper.go"], ServerWrapperPath); ([T "service"; T "wrapper.go"], ServiceWrapperPath)]).
    { destruct (d_client d); cbn [In] in *; repeat destruct H as [H|H]; try contradiction; try (right; solve [auto 10]). left. auto. }
    destruct Hc as [[[= -> ->] Ec]|Hc].
    - split; [right; right; left; reflexivity|]. split; [reflexivity|]. split; [apply actual_client|]. intros prev g. unfold Generator.response, Generator.other_response.
      change (str_eqb CmdClientPath ServicePath) with false. change (str_eqb CmdClientPath ServiceWrapperPath) with false. change (str_eqb CmdClientPath CmdServerPath) with false.
      change (str_eqb CmdClientPath CmdClientPath) with true. rewrite Ec. reflexivity.
    - cbn [In] in Hc. destruct Hc as [[= <- <-]|[[= <- <-]|[[= <- <-]|[[= <- <-]|[[= <- <-]|[]]]]]].
      1: split; [right; left; reflexivity|]; split; [reflexivity|]; split; [apply actual_main|reflexivity].
      all: split; [unfold assets; cbn [In]; tauto|]; split; [reflexivity|]; split; [reflexivity|reflexivity].
  Qed.
  Lemma service_facts : forall d, template_path_to_actual ServicePath (to_lower (d_name d)) = slashed service_file /\
    forall prev g, response ServicePath d prev g <-> service_render d prev g.
  Proof. intro d. split; [reflexivity|]. intros prev g. reflexivity. Qed.
  Lemma server_facts : forall d, template_path_to_actual ServerPath (to_lower (d_name d)) = slashed server_file /\
    forall prev g, response ServerPath d prev g <-> g = finish (tmpl ServerPath d).
  Proof. intro d. split; [reflexivity|]. intros prev g. reflexivity. Qed.
  Lemma service_not_ignored : forall d prev, ~ service_render d prev GIgnored.
  Proof.
    intros d prev H. inversion H; subst; eapply finish_not_ignored; eassumption.
  Qed.

  (** What a generation has. *)
  Lemma user_file_content : forall d prev m p t, generate_gokit d prev (Some m) -> In (p, t) (user_files (to_lower (d_name d)) (d_client d)) ->
    exists c, keep_or_make tmpl t d (mget prev (slashed p)) = Some c /\ mget m (slashed p) = Some (fmt c).
  Proof.
    intros d prev m p t H Hi. destruct (user_facts d p t Hi) as (U1 & U2 & U3 & U4). destruct (gokit_facts d prev m H) as (_ & _ & F). specialize (F t U1). rewrite U2, U3 in F.
    destruct F as [(b & Hr & Hb)|[Hr _]]; apply U4 in Hr.
    - symmetry in Hr. apply finish_ok in Hr. destruct Hr as (c & Ec & ->). exists c. auto.
    - symmetry in Hr. exfalso. exact (finish_not_ignored _ Hr).
  Qed.
  Lemma server_file_content : forall d prev m, generate_gokit d prev (Some m) -> exists c, tmpl ServerPath d = Some c /\ mget m (slashed server_file) = Some (fmt c).
  Proof.
    intros d prev m H. destruct (server_facts d) as (U3 & U4). destruct (gokit_facts d prev m H) as (_ & _ & F). specialize (F ServerPath).
    change (is_excluded_path ServerPath) with false in F. rewrite U3 in F. destruct F as [(b & Hr & Hb)|[Hr _]]; [unfold assets; cbn [In]; tauto| |]; apply U4 in Hr.
    - symmetry in Hr. apply finish_ok in Hr. destruct Hr as (c & Ec & ->). exists c. auto.
    - symmetry in Hr. exfalso. exact (finish_not_ignored _ Hr).
  Qed.
  Lemma service_file_content : forall d prev m, generate_gokit d prev (Some m) -> exists b, service_render d (mget prev (slashed service_file)) (GOk b) /\ mget m (slashed service_file) = Some b.
  Proof.
    intros d prev m H. destruct (service_facts d) as (U3 & U4). destruct (gokit_facts d prev m H) as (_ & _ & F). specialize (F ServicePath).
    change (is_excluded_path ServicePath) with false in F. rewrite U3 in F. destruct F as [(b & Hr & Hb)|[Hr _]]; [unfold assets; cbn [In]; tauto| |]; apply U4 in Hr.
    - exists b. auto.
    - exfalso. exact (service_not_ignored _ _ Hr).
  Qed.
  Lemma generated_keys : forall d prev m, generate_gokit d prev (Some m) ->
    NoDup (keys m) /\ forall p, In p (keys m) <-> In p (map slashed (all_files (to_lower (d_name d)) (d_client d))).
  Proof.
    intros d prev m H. destruct (gokit_facts d prev m H) as (F1 & F2 & F3). split; [exact F1|]. intro p.
    assert (D : In p (keys m) <-> mget m p <> None) by (rewrite mget_none; destruct (in_dec str_eq_dec p (keys m)); tauto). rewrite D. clear D. split.
    - intro K. destruct (in_dec str_eq_dec p (map (fun t => template_path_to_actual t (to_lower (d_name d))) assets)) as [Hi|Hi]; [|elim K; apply F2; exact Hi].
      apply in_map_iff in Hi. destruct Hi as (t & <- & Ht). specialize (F3 t Ht). unfold all_files. cbn [map].
      assert (Hex : forall t, In t assets -> is_excluded_path t = false -> (t = ServicePath \/ t = ServerPath \/ t = CmdClientPath \/ exists q, In (q, t) (user_files (to_lower (d_name d)) false))).
      { intros u Hu Eu. unfold assets in Hu. cbn [In] in Hu. repeat destruct Hu as [<-|Hu]; try discriminate; try contradiction; try tauto; right; right; right; eexists; unfold user_files; cbn [app In]; auto 10. }
      destruct (is_excluded_path t) eqn:Ee; [congruence|]. destruct (Hex t Ht Ee) as [->|[->|[->|[q Hq]]]].
      + left. reflexivity.
      + right. left. reflexivity.
      + right. right. rewrite actual_client. destruct (d_client d) eqn:Ec.
        * apply in_map. apply in_map_iff. exists (client_file (to_lower (d_name d)), CmdClientPath). split; [reflexivity|]. unfold user_files. apply in_or_app. right. left. reflexivity.
        * exfalso. destruct F3 as [(b & Hr & _)|[_ Hr]]; [|congruence]. unfold Generator.response, Generator.other_response in Hr.
          change (str_eqb CmdClientPath ServicePath) with false in Hr. change (str_eqb CmdClientPath ServiceWrapperPath) with false in Hr. change (str_eqb CmdClientPath CmdServerPath) with false in Hr.
          change (str_eqb CmdClientPath CmdClientPath) with true in Hr. cbn iota in Hr. rewrite Ec in Hr. discriminate.
      + right. right. assert (Hq' : In (q, t) (user_files (to_lower (d_name d)) (d_client d))).
        { unfold user_files in *. cbn [app] in Hq. apply in_or_app. left. rewrite app_nil_r in Hq || idtac. exact Hq. }
        destruct (user_facts d q t Hq') as (_ & _ & E & _). rewrite E. apply in_map, in_map_iff. exists (q, t). auto.
    - intro K. unfold all_files in K. cbn [map] in K. destruct K as [<-|[<-|K]].
      + destruct (service_file_content d prev m H) as (b & _ & E). congruence.
      + destruct (server_file_content d prev m H) as (c & _ & E). congruence.
      + apply in_map_iff in K. destruct K as (q & <- & K). apply in_map_iff in K. destruct K as ([q' t] & <- & K). destruct (user_file_content d prev m q' t H K) as (c & _ & E). cbn [fst]. congruence.
  Qed.
End P.

(** ** The previous generation *)
Lemma node_ind2 : forall P : node -> Prop, (forall b, P (NFile b)) -> (forall l, Forall (fun e => P (snd e)) l -> P (NDir l)) -> forall n, P n.
Proof.
  intros P H1 H2. fix IH 1. intros [b|l]; [apply H1|apply H2]. induction l as [|[nm n] l IHl]; constructor; [apply IH|exact IHl].
Qed.
Section Walk.
  Variables base svc : str.
  Fixpoint dirs_ok (name : str) (q : path) : Prop :=
    match q with [] => True | nm :: q' => walked base svc name = true /\ dirs_ok nm q' end.
  Lemma walk_in : forall n, wf_node n -> forall rel name p b,
    In (p, b) (walk base svc rel name n) <-> exists q, p = rel ++ q /\ lookup n q = Some b /\ dirs_ok name q.
  Proof.
    intro n. induction n as [c|l IH] using node_ind2; intros Hw rel name p b.
    - cbn [walk In lookup]. split.
      + intros [[= <- <-]|[]]. exists []. rewrite app_nil_r. cbn. auto.
      + intros ([|nm q] & -> & E & _); [|discriminate]. injection E as <-. rewrite app_nil_r. left. reflexivity.
    - inversion Hw as [|l' Hnd Hf]; subst. cbn [walk]. destruct (walked base svc name) eqn:Ew.
      2: { cbn [In]. split; [tauto|]. intros ([|nm q] & -> & E & K); [discriminate|]. destruct K as [K _]. congruence. }
      assert (G : In (p, b) ((fix go (l : list (str * node)) : list (path * bytes) := match l with [] => [] | (nm, n') :: l' => walk base svc (rel ++ [nm]) nm n' ++ go l' end) l) <->
        exists nm n' q, In (nm, n') l /\ p = rel ++ nm :: q /\ lookup n' q = Some b /\ dirs_ok nm q).
      { clear Hw Hnd. induction l as [|[nm n'] l IHl]; [cbn; split; [tauto|intros (? & ? & ? & [] & _)]|]. inversion IH as [|x y IH1 IH2]; subst. inversion Hf as [|x y [_ Hf1] Hf2]; subst.
        rewrite in_app_iff. cbn [snd] in *. rewrite (IH1 Hf1), (IHl IH2 Hf2). split.
        - intros [(q & -> & E & K)|(nm2 & n2 & q & Hi & K)]; [exists nm, n', q; rewrite <- app_assoc; split; [left; reflexivity|auto]|exists nm2, n2, q; split; [right; exact Hi|exact K]].
        - intros (nm2 & n2 & q & [[= <- <-]|Hi] & -> & E & K); [left; exists q; rewrite <- app_assoc; auto|right; exists nm2, n2, q; auto]. }
      rewrite G. assert (L : forall nm q, lookup (NDir l) (nm :: q) = Some b <-> exists n', In (nm, n') l /\ lookup n' q = Some b).
      { intros nm q. cbn [lookup]. clear - Hnd. induction l as [|[nm' n'] l IHl]; [split; [discriminate|intros (? & [] & _)]|]. inversion Hnd as [|x y Hx Hy]; subst.
        destruct (str_eqb_spec nm nm') as [->|N1].
        - split; [intro E; exists n'; split; [left; reflexivity|exact E]|]. intros (n2 & [[= <-]|Hi] & E); [exact E|]. exfalso. apply Hx. apply (in_map fst) in Hi. exact Hi.
        - rewrite (IHl Hy). split; [intros (n2 & Hi & E); exists n2; split; [right; exact Hi|exact E]|]. intros (n2 & [[= <- <-]|Hi] & E); [congruence|exists n2; auto]. }
      split.
      + intros (nm & n' & q & Hi & -> & E & K). exists (nm :: q). split; [reflexivity|]. split; [apply L; exists n'; auto|]. cbn. auto.
      + intros ([|nm q] & -> & E & K); [discriminate|]. apply L in E. destruct E as (n' & Hi & E). destruct K as [_ K]. exists nm, n', q. auto.
  Qed.
  Lemma lookup_names : forall n, wf_node n -> forall q b, lookup n q = Some b -> Forall (fun nm => ~ In c_slash nm) q.
  Proof.
    intro n. induction n as [c|l IH] using node_ind2; intros Hw q b E; [destruct q; [constructor|discriminate]|]. inversion Hw as [|l' Hnd Hf]; subst. destruct q as [|nm q]; [discriminate|]. cbn [lookup] in E.
    clear Hw Hnd. induction l as [|[nm' n'] l IHl]; [discriminate|]. inversion IH as [|x y IH1 IH2]; subst. inversion Hf as [|x y [Hs Hf1] Hf2]; subst. destruct (str_eqb_spec nm nm') as [->|N1].
    - constructor; [exact Hs|]. apply (IH1 Hf1 q b E).
    - apply IHl; assumption.
  Qed.
  Lemma join_inj : forall a b, a <> [] -> b <> [] -> Forall (free c_slash) a -> Forall (free c_slash) b -> join [c_slash] a = join [c_slash] b -> a = b.
  Proof. intros a b Ha Hb Fa Fb E. rewrite <- (split_join c_slash a Ha Fa), E. apply split_join; assumption. Qed.

  Lemma fold_read : forall (l : list (path * bytes)) m r,
    (forall p1 b1 p2 b2, In (p1, b1) l -> In (p2, b2) l -> join [c_slash] p1 = join [c_slash] p2 -> b1 = b2) ->
    (r = T "server/server.go" -> mget (fold_left add_file l m) r = mget m r) /\
    (r <> T "server/server.go" -> (forall p b, In (p, b) l -> join [c_slash] p = r -> mget (fold_left add_file l m) r = Some b) /\
       ((forall p b, In (p, b) l -> join [c_slash] p <> r) -> mget (fold_left add_file l m) r = mget m r)).
  Proof.
    induction l as [|[p0 b0] l IH]; intros m r Hf; cbn [fold_left].
    - split; [reflexivity|]. intros _. split; [intros p b []|reflexivity].
    - assert (Hf' : forall p1 b1 p2 b2, In (p1, b1) l -> In (p2, b2) l -> join [c_slash] p1 = join [c_slash] p2 -> b1 = b2) by (intros p1 b1 p2 b2 H1 H2; apply (Hf p1 b1 p2 b2); right; assumption).
      set (m1 := add_file m (p0, b0)). specialize (IH m1 r Hf'). destruct IH as [I1 I2].
      assert (E1 : join [c_slash] p0 <> r \/ r = T "server/server.go" -> mget m1 r = mget m r).
      { intro K. unfold m1, add_file. cbn [fst snd]. destruct (str_eqb_spec (join [c_slash] p0) (T "server/server.go")) as [E|N1]; [reflexivity|]. apply mget_mset_other. destruct K; congruence. }
      split; [intro Er; rewrite (I1 Er); auto|]. intro Er. destruct (I2 Er) as [I3 I4]. split.
      + intros p b [[= <- <-]|Hi] Ej; [|apply (I3 p b Hi Ej)].
        destruct (in_dec str_eq_dec r (map (fun e => join [c_slash] (fst e)) l)) as [Hin|Hin].
        * apply in_map_iff in Hin. destruct Hin as ([p2 b2] & E2 & Hi2). cbn [fst] in E2. rewrite (I3 p2 b2 Hi2 E2). f_equal. apply (Hf p2 b2 p0 b0); [right; exact Hi2|left; reflexivity|congruence].
        * rewrite I4 by (intros p2 b2 Hi2 E2; apply Hin; rewrite <- E2; apply (in_map (fun e => join [c_slash] (fst e)) l (p2, b2)); exact Hi2).
          unfold m1, add_file. cbn [fst snd]. rewrite Ej. apply str_eqb_neq in Er. rewrite Er. apply mget_mset_same.
      + intro K. rewrite I4 by (intros p b Hi; apply (K p b); right; exact Hi). apply E1. left. apply (K p0 b0). left. reflexivity.
  Qed.
  (** The previous generation has, of a directory, exactly the files whose directories are walked. *)
  Lemma read_previous : forall l rel, wf_node (NDir l) -> rel <> [] -> Forall (fun nm => ~ In c_slash nm) rel -> rel <> server_file ->
    (dirs_ok base rel -> mget (read_previous_generation base svc (NDir l)) (slashed rel) = lookup (NDir l) rel) /\
    (~ dirs_ok base rel -> mget (read_previous_generation base svc (NDir l)) (slashed rel) = None).
  Proof.
    intros l rel Hw Hne Hs Hsf. unfold read_previous_generation. pose proof (walk_in (NDir l) Hw [] base) as W.
    assert (Hj : forall p b, In (p, b) (walk base svc [] base (NDir l)) -> join [c_slash] p = slashed rel -> p = rel).
    { intros p b Hi E. apply W in Hi. destruct Hi as (q & -> & El & _). cbn [app] in *. apply join_inj; [destruct q; discriminate|exact Hne|apply (lookup_names _ Hw q b El)|exact Hs|exact E]. }
    destruct (fold_read (walk base svc [] base (NDir l)) [] (slashed rel)) as [_ H2].
    { intros p1 b1 p2 b2 H1 H2 E. apply W in H1, H2. destruct H1 as (q1 & -> & E1 & _). destruct H2 as (q2 & -> & E2 & _). cbn [app] in *.
      assert (q1 = q2); [|congruence]. apply join_inj; [destruct q1; discriminate|destruct q2; discriminate|apply (lookup_names _ Hw q1 b1 E1)|apply (lookup_names _ Hw q2 b2 E2)|exact E]. }
    assert (Hr : slashed rel <> T "server/server.go").
    { intro K. apply Hsf. change (T "server/server.go") with (slashed server_file) in K. apply join_inj in K; [exact K|exact Hne|discriminate|exact Hs|].
      constructor; [intro Q; vm_compute in Q; repeat destruct Q as [Q|Q]; discriminate || contradiction|]. constructor; [intro Q; vm_compute in Q; repeat destruct Q as [Q|Q]; discriminate || contradiction|constructor]. }
    destruct (H2 Hr) as [H3 H4]. split; intro Hd.
    - destruct (lookup (NDir l) rel) as [b|] eqn:E.
      + apply (H3 rel b); [|reflexivity]. apply W. exists rel. auto.
      + rewrite H4; [reflexivity|]. intros p b Hi Ej. pose proof (Hj p b Hi Ej) as ->. apply W in Hi. destruct Hi as (q & Eq & El & _). cbn [app] in Eq. congruence.
    - rewrite H4; [reflexivity|]. intros p b Hi Ej. pose proof (Hj p b Hi Ej) as ->. apply W in Hi. destruct Hi as (q & Eq & El & K). cbn [app] in Eq. subst q. contradiction.
  Qed.
End Walk.
