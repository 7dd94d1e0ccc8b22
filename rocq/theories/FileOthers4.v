(** The declarations of the main package of the client: proofs (the statements are in PropProject.v). *)
From Coq Require Import String Lia.
From Verif Require Import GoStr GoStrProofs GoMap Strs StrsSpec SvcTypes HttpTransport Handler Generator Template Render TextSpec TextFile GoLex GoLexProofs GoDecls GoDeclsProofs WiringSpec DecoderText FileText GoUse GoUseProofs TextOthers FileService FileOthers FileOthers2.
From Verif Require WiringProofs DecoderTexts.

Section Client.
  Variable d : tdata.
  Notation svc := (sv_name (td_service d)).
  Notation methods := (sv_methods (td_service d)).
  Hypothesis Hmeth : forall i, In i methods -> Forall ident [sm_name i; go_camel_case (sm_name i); go_camel_case (ft_name (sm_req i)); svc].
  Hypothesis Hhelp : forall m, In m (td_helper d) -> Forall ident [hm_name m; go_camel_case (hm_name m); go_camel_case (hm_req m); svc].
  Hypothesis Hsvc : Forall ident [svc].
  Hypothesis Hdata : Forall inner [td_pb_import d].
  Ltac loop x Hx k :=
    lazymatch type of x with
    | smethod => let H := fresh in pose proof (Hmeth x Hx) as H; let H' := fresh in pose proof Hnone as H'; k constr:([sm_name x; go_camel_case (sm_name x); go_camel_case (ft_name (sm_req x)); svc]) constr:(none); clear H H'
    | hmeth => let H := fresh in pose proof (Hhelp x Hx) as H; let H' := fresh in pose proof Hnone as H'; k constr:([hm_name x; go_camel_case (hm_name x); go_camel_case (hm_req x); svc]) constr:(none); clear H H'
    end.
  Notation H := (nonempty (td_helper d)).
  Notation G := (with_grpc d).
  Notation N := (with_nats d).
  Definition client_uses : list (str * list str) :=
    [(T "pb", when G (T "NewGRPCClient" :: map (fun i => go_camel_case (ft_name (sm_req i))) methods) ++ when H (flat_map (fun m => [go_camel_case (hm_req m); T "NewHTTPClient"]) (td_helper d)) ++
              when N (T "NewNATSClient" :: map (fun i => go_camel_case (ft_name (sm_req i))) methods));
     (T "context", when G (map (fun _ => T "Background") methods) ++ when H (map (fun _ => T "Background") (td_helper d)) ++ when N (map (fun _ => T "Background") methods));
     (T "nats", when N [T "Connect"]);
     (T "grpc", when G [T "Dial"; T "WithInsecure"; T "WithBlock"]);
     (T "flag", [T "StringVar"; T "StringVar"; T "StringVar"; T "Parse"]);
     (T "log", when G ([T "Println"; T "Fatal"; T "Fatal"] ++ flat_map (fun _ => [T "Fatalf"; T "Printf"]) methods) ++ when H (T "Println" :: flat_map (fun _ => [T "Fatal"; T "Fatalf"; T "Printf"]) (td_helper d)) ++
               when N ([T "Println"; T "Fatal"; T "Fatal"] ++ flat_map (fun _ => [T "Fatalf"; T "Printf"]) methods) ++ [T "Println"])].
  Lemma client_reads : filed (concat (cmd_client_pieces d)) (file_says (T "main")
    (map (fun p => (None, p)) ([T "context"; T "flag"; T "log"] ++ when N [T "github.com/nats-io/nats.go"]) ++ [(Some (T "pb"), td_pb_import d)] ++ map (fun p => (None, p)) (when G [T "google.golang.org/grpc"]))
    [T "grpcAddr"; T "httpAddr"; T "natsAddr"; T "init"; T "main"; T "pln"] client_uses
    (when G (T "pln" :: map (fun _ => T "pln") methods) ++ when H (T "pln" :: map (fun _ => T "pln") (td_helper d)) ++ when N (T "pln" :: map (fun _ => T "pln") methods))).
  Proof.
    eexists; eexists; split; [unfold cmd_client_pieces; match goal with |- adds (10%N :: concat (?a :: ?r)) ?l => change (adds (concat ((10%N :: a) :: r)) l) end; adds_with loop [svc] [td_pb_import d]|].
    split; [walk|]. split; [eexists; reflexivity|]. split; [destruct N, G; reflexivity|]. split; [reflexivity|].
    unfold client_uses, when. split.
    - repeat (apply Forall_cons; [cbn [fst snd]; uses_are; rewrite <- ?map_flat; destruct N, G, H; tidy|]). apply Forall_nil.
    - calls_are. rewrite <- ?map_flat. destruct N, G, H; tidy.
  Qed.
End Client.
