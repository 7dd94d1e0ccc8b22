(** C77: every template renders. *)
From Coq Require Import Lia String Permutation.
From Verif Require Import GoStr GoStrProofs GoMap SvcTypes HttpTransport Handler HandlerSpec Generator GeneratorSpec Template TemplateProofs Assets Cmdline Render RenderProofs Main MainSpec PropMain.

Section C77.
  Variable format_source : str -> option str.
  Variables import pb_import version date : str.
  Notation templates := (templates format_source import pb_import version date).
  (** For every definition whose HTTP helper can be made (C27 says when), with any options, each of the nine templates that baron renders for a service is
      parsed and executed without an error, on the data of that definition. *)
  Theorem c77_files : forall sd sv hs o dt x, sd_service sd = Some sv -> new_helper (sd_messages sd) (sv_methods sv) = Ret hs ->
    In x [T "baron/NAME.pb.baron.go.tmpl"; T "cmd/NAME/main.go.tmpl"; T "cmd/NAME-client/main.go.tmpl"; T "server/endpoints.go.tmpl"; T "server/interrupt.go.tmpl";
          T "server/server.go.tmpl"; T "server/wrapper.go.tmpl"; T "service/service.go.tmpl"; T "service/wrapper.go.tmpl"] ->
    exists s, templates sd o x dt = Some s.
  Proof.
    intros sd sv hs o dt x Es Eh Hx. unfold Render.templates. rewrite Es. unfold new_data. rewrite Eh. apply renders.
    - cbn [In] in Hx. unfold assets. cbn [In]. repeat (destruct Hx as [<-|Hx]; [repeat (first [left; reflexivity | right])|]). contradiction.
    - intros ->. cbn [In] in Hx. repeat (destruct Hx as [Hx|Hx]; [discriminate|]). contradiction.
    - exact (helper_binds _ _ _ Eh).
  Qed.
  (** So does the template of the methods that are added to service.go, for any service name and methods. *)
  Theorem c77_methods : forall svc ms, exists s, render_methods format_source svc ms = Some s.
  Proof. exact (methods_render format_source). Qed.
  (** And the code of a field or of a oneof. *)
  Theorem c77_decoders : (forall f, exists s, field_unmarshaler format_source f = Some s) /\ forall o, exists s, oneof_unmarshaler format_source o = Some s.
  Proof. split; [exact (field_unmarshaler_made format_source)|exact (oneof_unmarshaler_made format_source)]. Qed.
  (** So a run of baron in a ready world (C76) needs no hypothesis on the templates. *)
  Theorem c77_ready : forall tmpl parse_go w o cw d names gps t fs sv outs gos root,
    ready tmpl parse_go w o cw d names gps t fs sv outs gos root -> ready templates parse_go w o cw d names gps t fs sv outs gos root.
  Proof.
    intros tmpl parse_go w o cw d names gps t fs sv outs gos root H. destruct H as [H1 H2 H3 H4 H5 H6 H7 H8 H9 H10]. split; try assumption.
    intros sd svc hs x Es Eh Hx Hn. unfold Render.templates. rewrite Es. unfold new_data. rewrite Eh.
    destruct (renders format_source x (mkTData import pb_import (sd_pkg sd) svc hs (op_transport o) version date) Hx Hn (helper_binds _ _ _ Eh)) as [s ->]. discriminate.
  Qed.
End C77.

(** ** What is not so *)
(** A method without bindings is not rendered into the HTTP client of anything: NewHelper leaves it out.  With such a method among those of the helper, the HTTP
    client is still made (the template looks whether there is a binding), but the template of the methods cannot be used for a file of the service. *)
Definition ex_td (hs : list hmeth) : tdata := mkTData (T "x/y") (T "x/pb") (T "pb") (mkSvc (T "Foo") []) hs (T "all") (T "v") (T "d").
Example c77_methods_template_is_not_a_file : forall fmt, render_asset fmt ServiceMethodsPath (ex_td []) = None.
Proof. intro fmt. vm_compute. reflexivity. Qed.
(** ** A case *)
Definition ex_ft (n : str) : ftype := mkFT n None None (Some (MDef 0)) None true false.
Definition ex_int : ftype := mkFT (T "int64") None None None None false false.
Definition ex_sd : svcdef :=
  mkSvcdef (T "pb") [mkMsg (T "Req") []] []
    (Some (mkSvc (T "Foo") [mkSMeth (T "Get") (ex_ft (T "Req")) (ex_ft (T "Resp"))
       [mkSBind (T "get") (T "/v1/{id}") [mkParam (mkFld (T "Id") (T "id") ex_int) (T "path"); mkParam (mkFld (T "N") (T "n") ex_int) (T "query")]]; mkSMeth (T "Ping") (ex_ft (T "Req")) (ex_ft (T "Resp")) []])).
Example c77_case : (exists hs, new_helper (sd_messages ex_sd) (match sd_service ex_sd with Some sv => sv_methods sv | None => [] end) = Ret hs) /\
  match templates (fun _ => None) (T "x/foo-service") (T "x/pb") (T "v1") (T "today") ex_sd opts0 BaronPath (mkData (T "Foo") [] false) with
  | None => False
  | Some s => forallb (contains s) [T "m.Methods(""GET"").Path(""/v1/{id}"").Handler("; T "IdGetStr := pathParams[""id""]"; T "NGet, err := strconv.ParseInt(NGetStr, 10, 64)"; T "req.N = NGet"] = true
  end.
Proof. split; [eexists; vm_compute; reflexivity|]. vm_compute. reflexivity. Qed.
Print Assumptions c77_files.
Print Assumptions c77_methods.
Print Assumptions c77_decoders.
Print Assumptions c77_ready.
