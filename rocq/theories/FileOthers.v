(** The declarations of the files of package server, of service/wrapper.go and of the two main packages: proofs (the statements are in PropProject.v). *)
From Coq Require Import String Lia.
From Verif Require Import GoStr GoStrProofs GoMap Strs StrsSpec SvcTypes HttpTransport Handler Generator Template Render TextSpec TextFile GoLex GoLexProofs GoDecls GoDeclsProofs WiringSpec DecoderText FileText GoUse GoUseProofs GoServer ServerProg TextOthers FileService.
From Verif Require WiringProofs DecoderTexts.

Lemma flat_uses_plain p ds : flat_map (uses_of p) (map plain ds) = flat_map (uses_of p) ds.
Proof. induction ds as [|x ds IH]; [reflexivity|]. cbn [map flat_map]. rewrite IH. unfold uses_of. rewrite uses_plain. reflexivity. Qed.
Lemma flat_calls_plain ds : flat_map calls_of (map plain ds) = flat_map calls_of ds.
Proof. induction ds as [|x ds IH]; [reflexivity|]. cbn [map flat_map]. rewrite IH. unfold calls_of. rewrite calls_plain. reflexivity. Qed.

(** What a file says *)
Definition file_says (pkg : str) (imports : list (option str * str)) (names : list str) (table : list (str * list str)) (called : list str) (ds : list (list token)) : Prop :=
  (exists r, ds = [Word (T "package"); Word pkg] :: r) /\ flat_map import_specs ds = imports /\ flat_map declares ds = names /\
  Forall (fun e => flat_map (uses_of (fst e)) ds = snd e) table /\ flat_map calls_of ds = called.

Lemma shut_if (b : bool) x : shut x -> shut (if b then x else []). Proof. destruct b; [auto|intros _; exact shut_nil]. Qed.
Lemma uses_if p (b : bool) x u : uses p false x = u -> uses p false (if b then x else []) = if b then u else []. Proof. destruct b; [auto|reflexivity]. Qed.
Lemma calls_if (b : bool) x u : calls None x = u -> calls None (if b then x else []) = if b then u else []. Proof. destruct b; [auto|reflexivity]. Qed.
Ltac shut :=
  lazymatch goal with
  | |- shut (_ ++ _) => apply shut_app; [shut|shut]
  | |- shut (concat (map _ _)) => apply shut_concat; let x := fresh in intro x; cbv beta; shut
  | |- shut [] => exact shut_nil
  | |- shut (if ?b then _ else _) => apply shut_if; shut
  | |- shut _ => apply shut_rest; reflexivity
  end.
Ltac known := lazymatch goal with |- ?x = _ => let y := eval lazy -[go_camel_case to_lower service_type] in x in exact (eq_refl y) end.
Ltac join_uses :=
  lazymatch goal with
  | |- uses _ false (_ ++ _) = _ => eapply uses_join; [shut|join_uses|join_uses]
  | |- uses _ false (if _ then _ else _) = _ => eapply uses_if; join_uses
  | |- uses _ false (concat (map _ _)) = _ => eapply uses_loop; [let x := fresh in intro x; cbv beta; shut|let x := fresh in intro x; cbv beta; join_uses]
  | |- _ => known
  end.
Ltac join_calls :=
  lazymatch goal with
  | |- calls None (_ ++ _) = _ => eapply calls_join; [shut|join_calls|join_calls]
  | |- calls None (if _ then _ else _) = _ => eapply calls_if; join_calls
  | |- calls None (concat (map _ _)) = _ => eapply calls_loop; [let x := fresh in intro x; cbv beta; shut|let x := fresh in intro x; cbv beta; join_calls]
  | |- _ => known
  end.
Lemma fm_cons {A B} (f : A -> list B) x r u v : f x = u -> flat_map f r = v -> flat_map f (x :: r) = u ++ v. Proof. intros <- <-. reflexivity. Qed.
Lemma fm_app {A B} (f : A -> list B) x r u v : flat_map f x = u -> flat_map f r = v -> flat_map f (x ++ r) = u ++ v. Proof. intros <- <-. apply flat_map_app. Qed.
Ltac sums one :=
  lazymatch goal with
  | |- flat_map _ (_ :: _) = _ => eapply fm_cons; [one|sums one]
  | |- flat_map _ (_ ++ _) = _ => eapply fm_app; [sums one|sums one]
  | |- flat_map _ [] = _ => exact (eq_refl [])
  | |- _ => known
  end.
Ltac uses_are := rewrite flat_uses_plain; eapply eq_trans; [sums ltac:(unfold uses_of; join_uses)|].
Ltac calls_are := rewrite flat_calls_plain; eapply eq_trans; [sums ltac:(unfold calls_of; join_calls)|].

Lemma flat_nil {X Y} (l : list X) (f : X -> list Y) : (forall x, f x = []) -> flat_map f l = []. Proof. intro H. induction l as [|x l IH]; [reflexivity|]. cbn [flat_map]. rewrite H, IH. reflexivity. Qed.
Ltac tidy := cbn [app]; rewrite ?flat_none; repeat (rewrite <- app_assoc; cbn [app]); rewrite ?app_nil_r; reflexivity.

Section Server.
  Variable d : tdata.
  Notation svc := (sv_name (td_service d)).
  Notation methods := (sv_methods (td_service d)).
  Definition endpoint_var (i : smethod) : str := to_lower (sm_name i) ++ T "Endpoint".
  Hypothesis Hmeth : forall i, In i methods -> Forall ident [sm_name i; endpoint_var i].
  Hypothesis Hsvc : Forall ident [svc].
  Hypothesis Hdata : Forall inner [td_version d; td_date d; td_pb_import d; td_import d].
  Ltac loop x Hx k :=
    lazymatch type of x with
    | smethod => let H := fresh in pose proof (Hmeth x Hx) as H; let H' := fresh in pose proof Hnone as H'; k constr:([sm_name x; endpoint_var x]) constr:(none); clear H H'
    end.
  Definition row1 (i : smethod) : str := concat [endpoint_var i; T " = pb.Make"; sm_name i; T "Endpoint(svc)
	"].
  Definition row2 (i : smethod) : str := concat [sm_name i; T "Endpoint:    "; endpoint_var i; T ",
	"].
  Definition tail_head : str := T "

	// Exit
	log.Println(""exit"", <-errc)
}

func NewEndpoints(svc pb." ++ svc ++ T "Server) pb.Endpoints {
	// Business domain
	svc = service.WrapService(svc)
	// Endpoint domain
	var (".
  Definition tail_mid : str := T "
	)

	endpoints := pb.Endpoints{".
  Definition tail_end : str := T "
	}
	// Wrap selected Endpoints with middlewares
	endpoints = service.WrapEndpoints(endpoints)

	return endpoints
}
".
  Lemma server_texts : 10%N :: concat (server_pieces d) = concat ((10%N :: nth 0 (server_pieces d) []) :: firstn 17 (skipn 1 (server_pieces d))) ++
    concat [tail_head ++ 10%N :: repeat 9%N 1; each row1 methods; tail_mid ++ 10%N :: repeat 9%N 1; each row2 methods; tail_end].
  Proof.
    assert (E1 : each row1 methods = nth 21 (server_pieces d) []) by (unfold each, server_pieces; cbn [nth]; unfold each; f_equal; apply map_ext; intro i; unfold row1, endpoint_var; cbn [concat]; rewrite <- !app_assoc; reflexivity).
    assert (E2 : each row2 methods = nth 23 (server_pieces d) []) by (unfold each, server_pieces; cbn [nth]; unfold each; f_equal; apply map_ext; intro i; unfold row2, endpoint_var; cbn [concat]; rewrite <- !app_assoc; reflexivity).
    rewrite E1, E2. clear E1 E2. transitivity (concat ((10%N :: nth 0 (server_pieces d) []) :: firstn 17 (skipn 1 (server_pieces d))) ++ concat (skipn 18 (server_pieces d))).
    - rewrite <- concat_app. reflexivity.
    - f_equal. unfold tail_head. unfold server_pieces. cbn [skipn nth concat]. rewrite <- !app_assoc. reflexivity.
  Qed.
  Notation hnames i := (nth_name [sm_name i; endpoint_var i]).
  Ltac tail :=
    let H := fresh in pose proof Hnone as H;
    refine (adds_rows_cons _ 1 _ row1 (fun i => map (ftok (hnames i) (nth_text none)) [Word [W 1]; Op (T "="); Word (lit "pb"); Op (T "."); Word (lit "Make" ++ W 0 :: lit "Endpoint"); Op (T "("); Word (lit "svc"); Op (T ")"); Semi]) _ _ _ _ _
              (adds_rows_cons _ 1 _ row2 (fun i => map (ftok (hnames i) (nth_text none)) [Word (W 0 :: lit "Endpoint"); Op (T ":"); Word [W 1]; Op (T ",")]) _ _ _ _ _ _));
    [unfold tail_head; rewrite <- !app_assoc; match goal with |- adds (?a ++ ?b ++ ?c ++ ?e) ?l => change (adds (concat [a; b; c ++ e]) l) end; seg [svc] none
    |let x := fresh in let Hx := fresh in intros x Hx; split; [unfold row1; loop x Hx ltac:(fun N Tx => lexes N Tx)|intro; exact (ends_row [endpoint_var x; T " = pb.Make"; sm_name x] (T "Endpoint(svc)") 1 _)]
    |match goal with |- adds ?a ?l => change (adds (concat [a]) l) end; seg [svc] none
    |let x := fresh in let Hx := fresh in intros x Hx; split; [unfold row2; loop x Hx ltac:(fun N Tx => lexes N Tx)|intro; exact (ends_row [sm_name x; T "Endpoint:    "; endpoint_var x] (T ",") 1 _)]
    |seg [svc] none].
  Definition when (b : bool) (l : list str) : list str := if b then l else [].
  Notation H := (nonempty (td_helper d)).
  Notation G := (with_grpc d).
  Notation N := (with_nats d).
  Definition server_uses : list (str * list str) :=
    [(T "pb", when H [T "MakeHTTPHandler"] ++ when G [T "MakeGRPCServer"; T "Register" ++ svc ++ T "Server"] ++ when N [T "MakeNATSServer"; T "ServeNATS"] ++
       [svc ++ T "Server"; T "Endpoints"] ++ flat_map (fun i => [T "Make" ++ sm_name i ++ T "Endpoint"]) methods ++ [T "Endpoints"]);
     (T "service", [T "WrapService"; T "WrapEndpoints"]);
     (T "nats", when N [T "Connect"; T "Conn"]);
     (T "grpc", when G [T "NewServer"]);
     (T "log", [T "Println"] ++ when H [T "Println"] ++ when G [T "Println"] ++ when N [T "Println"] ++ [T "Println"]);
     (T "net", T "Error" :: when G [T "Listen"]);
     (T "http", [T "NewServeMux"; T "HandlerFunc"; T "HandlerFunc"; T "HandlerFunc"; T "HandlerFunc"; T "HandlerFunc"; T "ListenAndServe"] ++ when H [T "ListenAndServe"]);
     (T "pprof", [T "Index"; T "Cmdline"; T "Profile"; T "Symbol"; T "Trace"]);
     (T "runtime", T "Error" :: when N [T "SetFinalizer"]);
     (T "cfg", [T "Debug"; T "DebugAddr"; T "DebugAddr"] ++ when H [T "HTTPAddr"; T "HTTPAddr"; T "HTTPAddr"] ++ when G [T "GRPCAddr"; T "GRPCAddr"; T "GRPCAddr"] ++ when N [T "NATSAddr"; T "NATSAddr"; T "NATSAddr"])].
  Definition new_endpoints : list token :=
    [Word (T "func"); Word (T "NewEndpoints"); Op (T "("); Word (T "svc"); Word (T "pb"); Op (T "."); Word (svc ++ T "Server"); Op (T ")"); Word (T "pb"); Op (T "."); Word (T "Endpoints"); Op (T "{");
     Word (T "svc"); Op (T "="); Word (T "service"); Op (T "."); Word (T "WrapService"); Op (T "("); Word (T "svc"); Op (T ")"); Semi; Word (T "var"); Op (T "(")]
    ++ concat (map (fun m => [Word (to_lower (sm_name m) ++ T "Endpoint"); Op (T "="); Word (T "pb"); Op (T "."); Word (T "Make" ++ sm_name m ++ T "Endpoint"); Op (T "("); Word (T "svc"); Op (T ")"); Semi]) methods)
    ++ [Op (T ")"); Semi; Word (T "endpoints"); Op (T ":="); Word (T "pb"); Op (T "."); Word (T "Endpoints"); Op (T "{")]
    ++ concat (map (fun m => [Word (sm_name m ++ T "Endpoint"); Op (T ":"); Word (to_lower (sm_name m) ++ T "Endpoint"); Op (T ",")]) methods)
    ++ [Op (T "}"); Semi; Word (T "endpoints"); Op (T "="); Word (T "service"); Op (T "."); Word (T "WrapEndpoints"); Op (T "("); Word (T "endpoints"); Op (T ")"); Semi; Word (T "return"); Word (T "endpoints"); Semi; Op (T "}")].
  Ltac same_rows := refine (f_equal (@concat token) _); apply map_ext; let m := fresh in intro m; cbv beta; unfold endpoint_var;
    lazymatch goal with |- ?x = ?y => let u := eval lazy -[sm_name to_lower T] in x in let v := eval lazy -[sm_name to_lower T] in y in change (u = v) end; rewrite ?app_nil_r; reflexivity.
  Lemma server_reads : filed (concat (server_pieces d)) (fun ds => file_says (T "server")
    (map (fun p => (None, p)) ([T "log"; T "net"; T "net/http"; T "net/http/pprof"; T "runtime"] ++ when N [T "github.com/nats-io/nats.go"] ++ when G [T "google.golang.org/grpc"]) ++
     [(Some (T "pb"), td_pb_import d); (None, td_import d ++ T "/service")])
    [T "Config"; T "Run"; T "NewEndpoints"] server_uses
    ([T "Endpoints"; T "make"; T "Interrupt"] ++ when H [T "HTTPServerOptions"] ++ when G [T "GRPCServerOptions"] ++ when N [T "NATSSubscriberOptions"]) ds /\
    flat_map (fields_of (T "Config")) ds = [T "HTTPAddr"; T "DebugAddr"; T "GRPCAddr"; T "NATSAddr"; T "Debug"] /\
    nth 5 ds [] = plain new_endpoints /\ nth 4 ds [] = plain (run_fun (starts H G N svc))).
  Proof.
    eexists; eexists; split; [rewrite server_texts; eapply adds_app; [unfold server_pieces; cbn [firstn skipn nth]; adds_with loop [svc] [td_version d; td_date d; td_pb_import d; td_import d]|tail]|].
    split; [walk|]. split; [|split; [reflexivity|split; [refine (f_equal plain _); repeat rewrite <- app_assoc; unfold new_endpoints; repeat (apply f_equal2; [first [reflexivity|same_rows]|]); reflexivity|destruct N, G, H; reflexivity]]]. split; [eexists; reflexivity|]. split; [destruct N, G; reflexivity|]. split; [reflexivity|].
    unfold server_uses, when. split.
    - repeat (apply Forall_cons; [cbn [fst snd]; uses_are; destruct N, G, H; tidy|]). apply Forall_nil.
    - calls_are. destruct N, G, H; tidy.
  Qed.
End Server.
