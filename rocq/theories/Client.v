(** Model of the generated NewHTTPClient (509-548) and copyURL (550-554) of
    gengokit/template/NAME-service/baron/NAME.pb.baron.go.tmpl, with what they use of net/url (url.go: parse, getScheme,
    parseAuthority, parseHost, validOptionalPort) and where net/http sends the requests go-kit's client makes. *)
From Verif Require Import GoStr GoStrProofs GoMap HttpTransport Url.

Record url := mkUrl { u_scheme : str; u_opaque : str; u_host : str; u_path : str; u_query : str }.

(** url.go, getScheme; None: missing protocol scheme; Some None: no scheme. *)
Fixpoint get_scheme (first : bool) (s : str) : option (option (str * str)) :=
  match s with
  | [] => Some None
  | c :: s' =>
      let more := match get_scheme false s' with Some (Some (a, r)) => Some (Some (c :: a, r)) | x => x end in
      if is_letter c then more
      else if is_digit c || N.eqb c 43 || N.eqb c c_dash || N.eqb c c_dot then (if first then Some None else more)
      else if N.eqb c c_colon then (if first then None else Some (Some ([], s')))
      else Some None
  end.
(** url.go, validOptionalPort: what follows the colon. *)
Definition valid_port (s : str) : bool := forallb is_digit s.
(** The text after the last colon. *)
Fixpoint after_last (c : N) (s : str) : option str :=
  match s with
  | [] => None
  | x :: s' => match after_last c s' with Some r => Some r | None => if N.eqb x c then Some s' else None end
  end.
(** url.go, shouldEscape in encodeHost: what a host may have (bytes above 127 too). *)
Definition host_byte (c : N) : bool :=
  is_alnum c || contains1 (T "-_.~!$&'()*+,;=:[]<>""") c || (127 <? c)%N.
Section Parse.
  (** parseAuthority where there are users, brackets or escapes: not modelled. *)
  Variable other_auth : str -> option str.
  Definition parse_auth (s : str) : option str :=
    if contains1 s 64 || contains1 s 91 || contains1 s 37 then other_auth s
    else if match after_last c_colon s with Some p => valid_port p | None => true end && forallb host_byte s then Some s else None.
  (** url.go, Parse. *)
  Definition url_parse (raw : str) : option url :=
    let (u, frag) := cut_at 35 raw in
    if existsb (fun c => (c <? 32)%N || N.eqb c 127) u then None
    else match unescape false frag with
    | None => None
    | Some _ =>
        if str_eqb u (T "*") then Some (mkUrl [] [] [] (T "*") [])
        else match get_scheme true u with
        | None => None
        | Some sch =>
            let (scheme, rest0) := match sch with Some p => p | None => ([], u) end in
            let scheme := to_lower scheme in
            let (rest, query) := cut_at 63 rest0 in
            if negb (has_prefix rest (T "/")) && negb (str_eqb scheme []) then Some (mkUrl scheme rest [] [] query)
            else if negb (has_prefix rest (T "/")) && contains1 (fst (cut_at c_slash rest)) c_colon then None
            else if (negb (str_eqb scheme []) || negb (has_prefix rest (T "///"))) && has_prefix rest (T "//") then
              let (auth, p) := cut_at c_slash (skipn 2 rest) in
              match parse_auth auth with
              | None => None
              | Some h => match unescape false (if contains1 (skipn 2 rest) c_slash then c_slash :: p else []) with
                          | Some path => Some (mkUrl scheme [] h path query)
                          | None => None
                          end
              end
            else match unescape false rest with Some path => Some (mkUrl scheme [] [] path query) | None => None end
        end
    end.

  (** tmpl:550-554, copyURL *)
  Definition copy_url (base : url) (path : str) : url := mkUrl (u_scheme base) (u_opaque base) (u_host base) path (u_query base).
  (** An endpoint of the client: the verb, the URL and the binding whose encoder it uses; None: nil. *)
  Definition endpoint := option (str * url * hbind).
  Inductive client := ClientError | ClientPanics | Client (endpoints : str -> endpoint).
  (** tmpl:538-545: the field of the method in the literal. *)
  Fixpoint endpoints_of (u : url) (ms : list hmeth) (name : str) : endpoint :=
    match ms with
    | [] => None
    | m :: ms' =>
        if str_eqb (hm_name m) name then
          match hm_binds m with
          | b :: _ => Some (to_upper (hb_verb b), copy_url u (hb_base b), b)
          | [] => endpoints_of u ms' name
          end
        else endpoints_of u ms' name
    end.
  (** tmpl:509-548, NewHTTPClient *)
  Definition new_http_client (instance : str) (ms : list hmeth) : client :=
    let instance := if has_prefix instance (T "http") then instance else T "http://" ++ instance in
    match url_parse instance with
    | None => ClientError
    | Some u => match ms with [] => ClientPanics | _ => Client (endpoints_of u ms) end
    end.
End Parse.
(** net/http: the host a request for the URL is sent to; None: an error before anything is sent (no host, or another protocol). *)
Definition sent_to (u : url) : option (str * str) :=
  if (str_eqb (u_scheme u) (T "http") || str_eqb (u_scheme u) (T "https")) && negb (str_eqb (u_host u) [])
  then Some (u_scheme u, u_host u) else None.
