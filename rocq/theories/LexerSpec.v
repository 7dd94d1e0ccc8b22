(** Specification vocabulary for the lexer: which token a unit is, how comments group, and what a
    file with service definitions looks like. *)
From Verif Require Import GoStr Scanner ScannerSpec Lexer.

Definition is_comment (v : str) : Prop := exists d s, v = c_slash :: d :: s.
Definition blank (U : unicode) (v : str) : Prop := starts (fun c => u_space U c = true) v.

(** The token class of a unit that is not a comment. *)
Inductive unit_token (U : unicode) : str -> token -> Prop :=
| ut_space : forall c s, u_space U c = true -> unit_token U (c :: s) WHITESPACE
| ut_ident : forall c s, ident_rune U c -> unit_token U (c :: s) IDENT
| ut_string : forall s, unit_token U (c_dquote :: s) STRING_LITERAL
| ut_lparen : unit_token U (T "(") OPEN_PAREN
| ut_rparen : unit_token U (T ")") CLOSE_PAREN
| ut_lbrace : unit_token U (T "{") OPEN_BRACE
| ut_rbrace : unit_token U (T "}") CLOSE_BRACE
| ut_symbol : forall c, u_space U c = false -> ~ ident_rune U c ->
    ~ In c [c_dquote; c_lparen; c_rparen; c_lbrace; c_rbrace] -> unit_token U [c] SYMBOL.

(** What may follow the first comment of a run: comments, each possibly preceded by white space
    without a newline. *)
Inductive run_tail (U : unicode) : list scan_unit -> Prop :=
| rt_nil : run_tail U []
| rt_comment : forall c t, is_comment (su_val c) -> run_tail U t -> run_tail U (c :: t)
| rt_space : forall w c t, blank U (su_val w) -> ~ In c_nl (su_val w) -> is_comment (su_val c) ->
    run_tail U t -> run_tail U (w :: c :: t).

(** [rest] does not continue a run (and shows it before the file ends). *)
Definition ends_run (U : unicode) (rest : list scan_unit) : Prop :=
  match rest with
  | [] => False
  | u :: more =>
      ~ is_comment (su_val u) /\
      (blank U (su_val u) -> ~ In c_nl (su_val u) ->
       match more with [] => False | v :: _ => ~ is_comment (su_val v) end)
  end.

(** The tokens of a stretch of units: a maximal comment run is one COMMENT token carrying the run's
    text and the line of its last unit; any other unit is one token. *)
Inductive tokenized (U : unicode) : list scan_unit -> list token_group -> Prop :=
| tz_nil : tokenized U [] []
| tz_unit : forall u us k ts, ~ is_comment (su_val u) -> unit_token U (su_val u) k ->
    tokenized U us ts -> tokenized U (u :: us) (mkTok k (su_val u) (su_line u) :: ts)
| tz_comment : forall c t rest ts, is_comment (su_val c) -> run_tail U t -> ends_run U rest ->
    tokenized U rest ts ->
    tokenized U (c :: t ++ rest)
      (mkTok COMMENT (concat (map su_val (c :: t))) (su_line (last t c)) :: ts).

(** ** Files *)
(** Properly nested braces (over unit values). *)
Inductive nested : list str -> Prop :=
| ne_nil : nested []
| ne_other : forall v vs, v <> T "{" -> v <> T "}" -> nested vs -> nested (v :: vs)
| ne_block : forall a b, nested a -> nested b -> nested (T "{" :: a ++ T "}" :: b).

Definition no_service (vs : list str) : Prop := ~ In (T "service") vs.

(** Text between service definitions. *)
Definition service_free (vs : list str) : Prop := no_service vs /\ nested vs.

(** A closed service definition: service HEADER { BODY }. *)
Inductive service_block : list str -> Prop :=
| sb_intro : forall hdr body,
    no_service hdr -> ~ In (T "{") hdr -> ~ In (T "}") hdr ->
    no_service body -> nested body ->
    service_block (T "service" :: hdr ++ T "{" :: body ++ [T "}"]).

(** A file: service-free text alternating with closed service definitions; [blocks] collects the
    definitions. *)
Inductive proto_file : list str -> list (list str) -> Prop :=
| pf_end : forall j, service_free j -> proto_file j []
| pf_service : forall j b f blocks, service_free j -> service_block b -> proto_file f blocks ->
    proto_file (j ++ b ++ f) (b :: blocks).

(** A comment right after [pre] begins a new run: [pre] does not end in a comment, nor in a comment
    followed by white space without a newline. *)
Definition begins_run (U : unicode) (pre : list scan_unit) : Prop :=
  (forall a x, pre = a ++ [x] -> ~ is_comment (su_val x))
  /\ (forall a y x, pre = a ++ [y; x] -> is_comment (su_val y) -> blank U (su_val x) -> In c_nl (su_val x)).

(** The units end in a run of comments (possibly followed by newline-free white space) that nothing
    follows, after a unit [x] that lies in a service header, in a service body or within braces. *)
Definition dangling_run (U : unicode) (us : list scan_unit) : Prop :=
  exists c t, us = c :: t /\ is_comment (su_val c) /\
    (run_tail U t
     \/ exists t' w, t = t' ++ [w] /\ run_tail U t' /\ blank U (su_val w) /\ ~ In c_nl (su_val w)).
Definition dangling_comment (U : unicode) (us : list scan_unit) : Prop :=
  exists pre x run, us = pre ++ x :: run /\ dangling_run U run
    /\ (su_brace x <> 0%Z \/ su_def x = true \/ su_body x = true).
