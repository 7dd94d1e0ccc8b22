(** Model of gengokit/service/services.go: rendering the file with the service's handlers from the
    previous version of that file.

    A Go file is the list of its declarations.  Declarations that are no functions are opaque; a
    function has a name, a receiver, parameters, results, a body and a doc comment (the last two
    opaque).  Not modelled: free-floating comments, the printer and the formatter. *)
From Coq Require Import Permutation.
From Verif Require Import GoStr GoStrProofs GoMap Strs.

(** go/ast expressions, as far as the code looks at them. *)
Inductive expr := EIdent (n : str) | ESel (x : expr) (sel : str) | EStar (x : expr) | EOther (id : nat).
(** ast.Field: the names that share a type. *)
Record afield := mkAF { af_names : list str; af_type : expr }.
(** ast.FuncDecl; [fd_recv = None] is a nil Recv. *)
Record fundecl := mkFun {
  fd_fname : str;
  fd_recv : option (list afield);
  fd_params : list afield;
  fd_results : list afield;
  fd_body : str;
  fd_doc : str }.
Inductive decl := DFunc (f : fundecl) | DOther (text : str).

(** svcdef.ServiceMethod, as far as the code looks at it. *)
Record rpc := mkRpc { rpc_name : str; rpc_req : str; rpc_resp : str }.

Section H.
  (** unicode.IsUpper *)
  Variable upper : N -> bool.
  (** ast.IsExported *)
  Definition exported (n : str) : bool := match n with c :: _ => upper c | [] => false end.

  (** services.go:51-57, newMethodMap. *)
  Definition new_method_map (ms : list rpc) : gomap rpc := fold_left (fun m r => mset m (rpc_name r) r) ms [].

  (** services.go:266-294, exprString. *)
  Definition expr_string (e : expr) : str :=
    let '(prefix, e) := match e with EStar x => ([c_star], x) | _ => ([], e) end in
    match e with
    | ESel (EIdent x) sel => prefix ++ x ++ [c_dot] ++ sel
    | ESel _ _ => []
    | EIdent n => prefix ++ n
    | _ => []
    end.
  (** services.go:254-262, recvTypeToString: List[0] of an empty list panics. *)
  Definition recv_type_to_string (r : option (list afield)) : outcome str :=
    match r with
    | None => Ret []
    | Some [] => Panic
    | Some (f :: _) => Ret (expr_string (af_type f))
    end.
  (** services.go:222-250, isValidFunc. *)
  Definition is_valid_func (f : fundecl) (m : gomap rpc) (svc : str) : outcome bool :=
    if negb (exported (fd_fname f)) then Ret true
    else match mget m (fd_fname f) with
         | None => Ret false
         | Some _ => match recv_type_to_string (fd_recv f) with
                     | Ret r => Ret (str_eqb r (T "*" ++ svc ++ T "Service"))
                     | Panic => Panic
                     | OutOfFuel => OutOfFuel
                     end
         end.
  (** services.go:208-218, updatePBFieldType. *)
  Definition update_type (t : expr) (n : str) : expr :=
    match t with
    | EStar (ESel x _) => EStar (ESel x n)
    | ESel x _ => ESel x n
    | _ => t
    end.
  (** ast.FieldList.NumFields *)
  Definition num_fields (l : list afield) : nat :=
    fold_left (fun n f => n + match length (af_names f) with 0 => 1 | k => k end) l 0.
  (** [List[i].Type] updated; None is the index panic. *)
  Fixpoint update_nth (l : list afield) (i : nat) (n : str) : option (list afield) :=
    match l, i with
    | [], _ => None
    | f :: l', 0 => Some (mkAF (af_names f) (update_type (af_type f) n) :: l')
    | f :: l', S i' => match update_nth l' i' n with Some l'' => Some (f :: l'') | None => None end
    end.
  (** services.go:187-194, updateParams; None is a panic. *)
  Definition update_params (f : fundecl) (r : rpc) : option fundecl :=
    if Nat.eqb (num_fields (fd_params f)) 2
    then match update_nth (fd_params f) 1 (rpc_req r) with
         | Some ps => Some (mkFun (fd_fname f) (fd_recv f) ps (fd_results f) (fd_body f) (fd_doc f))
         | None => None
         end
    else Some f.
  (** services.go:198-205, updateResults. *)
  Definition update_results (f : fundecl) (r : rpc) : option fundecl :=
    if Nat.eqb (num_fields (fd_results f)) 2
    then match update_nth (fd_results f) 0 (rpc_resp r) with
         | Some rs => Some (mkFun (fd_fname f) (fd_recv f) (fd_params f) rs (fd_body f) (fd_doc f))
         | None => None
         end
    else Some f.
  (** services.go:24 *)
  Definition ignored_func : str := T "NewService".
  (** services.go:158-183, pruneDecls: the kept declarations and what is left of the method map. *)
  Fixpoint prune_decls (ds : list decl) (m : gomap rpc) (svc : str) : outcome (list decl * gomap rpc) :=
    match ds with
    | [] => Ret ([], m)
    | d :: ds' =>
        let keep d m := match prune_decls ds' m svc with
                        | Ret (l, m') => Ret (d :: l, m')
                        | x => x
                        end in
        match d with
        | DOther _ => keep d m
        | DFunc f =>
            if str_eqb (fd_fname f) ignored_func || negb (exported (fd_fname f)) then keep d m
            else match is_valid_func f m svc with
                 | Ret true =>
                     match mget m (fd_fname f) with
                     | None => Panic                              (* not reached: the function is valid *)
                     | Some r =>
                         match update_params f r with
                         | None => Panic
                         | Some f1 => match update_results f1 r with
                                      | None => Panic
                                      | Some f2 => keep (DFunc f2) (mdel m (fd_fname f))
                                      end
                         end
                     end
                 | Ret false => prune_decls ds' m svc
                 | Panic => Panic
                 | OutOfFuel => OutOfFuel
                 end
        end
    end.

  (** gengokit/template/NAME-service/service/service_methods.go.tmpl:3-6 (and service.go.tmpl:20-23):
      the handler made for an rpc. *)
  Definition template_handler (svc_name : str) (r : rpc) : decl :=
    DFunc (mkFun (rpc_name r)
      (Some [mkAF [T "s"] (EStar (EIdent (to_lower svc_name ++ T "Service")))])
      [mkAF [T "ctx"] (ESel (EIdent (T "context")) (T "Context"));
       mkAF [T "in"] (EStar (ESel (EIdent (T "pb")) (go_camel_case (rpc_req r))))]
      [mkAF [] (EStar (ESel (EIdent (T "pb")) (go_camel_case (rpc_resp r)))); mkAF [] (EIdent (T "error"))]
      (T "var resp pb." ++ go_camel_case (rpc_resp r) ++ T "; return &resp, nil") []).
  (** gengokit/template/NAME-service/service/service.go.tmpl: the file made when there is none. *)
  Definition first_file (svc_name : str) (ms : list rpc) : list decl :=
    DOther (T "import")
    :: DFunc (mkFun ignored_func None [] [mkAF [] (EStar (EIdent (to_lower svc_name ++ T "Service")))]
         (T "return &" ++ to_lower svc_name ++ T "Service{}") [])
    :: DOther (T "type " ++ to_lower svc_name ++ T "Service struct")
    :: map (template_handler svc_name) ms.

  (** services.go:73-120, Render with the right path: what it can return.  The order in which the
      handlers of new methods come is that of the map. *)
  Inductive render (svc_name : str) (ms : list rpc) : option (list decl) -> outcome (list decl) -> Prop :=
  | RenderFirst : render svc_name ms None (Ret (first_file svc_name ms))
  | RenderPanic : forall ds, prune_decls ds (new_method_map ms) (to_lower svc_name) = Panic ->
      render svc_name ms (Some ds) Panic
  | RenderAgain : forall ds kept m order, prune_decls ds (new_method_map ms) (to_lower svc_name) = Ret (kept, m) ->
      Permutation order (map snd m) ->
      render svc_name ms (Some ds) (Ret (kept ++ map (template_handler svc_name) order)).
End H.
