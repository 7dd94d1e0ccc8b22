(** Model of the HTTP half of the code generated from
    gengokit/template/NAME-service/baron/NAME.pb.baron.go.tmpl ("tmpl" below) and from the snippets of
    gengokit/httptransport/httptransport.go ("ht"): the client's request encoder and the server's
    router and request decoder, run on any binding.  A text is the list of the bytes of a string.

    Not modelled: that Go accepts the generated text (see HttpTypes.v for the assignments), the
    network (the server sees the client's decoded path, its query text and its body), and duplicated
    local variables. *)
From Verif Require Import GoStr GoStrProofs GoMap Decimals Strs HttpTransport Url.

(** Values of request fields.  Pointers (messages, optional scalars) are VNone/VSome; a slice is a
    list; [VMsg] is a message or byte slice, by some canonical text. *)
Inductive gval :=
| VZ (z : Z)                    (* integers and enums *)
| VB (b : bool)
| VF (bits : N)                 (* a float, by its IEEE bits *)
| VS (s : str)
| VNone | VSome (v : gval)
| VList (l : list gval)
| VMsg (m : str)
| VOneof (o : option (str * gval)).   (* the Go name of the option that is set, and its value *)
(** A request: the value of each field, by the Go name of the field. *)
Definition request := str -> gval.
Definition upd (r : request) (k : str) (v : gval) : request := fun x => if str_eqb x k then v else r x.

(** Library code outside the model. *)
Record codecs := mkCodecs {
  fl_text : nat -> N -> str;                    (* fmt.Sprint of a float of that width *)
  fl_parse : nat -> str -> option N;            (* strconv.ParseFloat *)
  other_text : gval -> str;                     (* fmt.Sprint of a pointer, slice or message *)
  js_enc : gval -> option str;                  (* json.Marshal of a message, slice or byte slice *)
  js_dec : str -> bool -> str -> option gval;   (* json.Unmarshal into a type / a slice of a type *)
  js_str : str -> option str;                   (* the text of a JSON string literal, given its inside *)
  js_junk : str -> str -> gval;                 (* what a failed json.Unmarshal leaves behind *)
  empty_msg : gval;                             (* &T{} *)
  pj_enc : request -> option str;               (* protojson.Marshal *)
  pj_dec : str -> option request }.             (* protojson.Unmarshal *)

Section Gen.
  Variable K : codecs.

  (** fmt.Sprint of a value of a Go type. *)
  Definition width (gotype : str) : nat := if str_eqb gotype (T "float32") then 32 else 64.
  Definition sprint (gotype : str) (v : gval) : str :=
    match v with
    | VZ z => itoa z
    | VB true => T "true"
    | VB false => T "false"
    | VF f => fl_text K (width gotype) f
    | VS s => s
    | _ => other_text K v
    end.
  (** json.Marshal: enums print as numbers, nil as null. *)
  Definition json_marshal (v : gval) : option str :=
    match v with
    | VZ z => Some (itoa z)
    | VNone => Some (T "null")
    | _ => js_enc K v
    end.

  (** tmpl:639-667: what the client adds to the query for one field; None is the error of 651-653.
      [Contains GoType "[]string"] (642) does not hold of a GoType without brackets. *)
  Definition field_values (req : request) (f : hfield) : option (list str) :=
    let v := req (hf_camel f) in
    if hf_rep f && hf_base f then                                                       (* 641, 645-647 *)
      Some (match v with VList l => map (sprint (hf_gotype f)) l | _ => [] end)
    else if negb (hf_base f) || hf_rep f then                                           (* 649-655 *)
      match json_marshal v with Some t => Some [t] | None => None end
    else if hf_star f then                                                              (* 658-661 *)
      Some (match v with VSome w => [sprint (hf_gotype f) w] | _ => [] end)
    else Some [sprint (hf_gotype f) v].                                                 (* 663 *)
  (** values.Add for each of them. *)
  Definition add_values (m : values) (k : str) (l : list str) : values := fold_left (fun m v => v_add m k v) l m.
  Fixpoint query_fields (req : request) (fs : list hfield) (m : values) : option values :=
    match fs with
    | [] => Some m
    | f :: fs' =>
        if str_eqb (hf_loc f) (T "query") then
          match field_values req f with
          | Some l => query_fields req fs' (add_values m (hf_query f) l)
          | None => None
          end
        else query_fields req fs' m
    end.

  (** [val != zero]: the generated comparison (tmpl:672, 681). *)
  Definition is_zero (gotype : str) (v : gval) : bool :=
    match v with
    | VZ z => Z.eqb z 0
    | VB b => negb b
    | VF f => N.eqb f 0 || N.eqb f (if str_eqb gotype (T "float32") then 2147483648 else 9223372036854775808)   (* 0.0 and -0.0 *)
    | VS s => match s with [] => true | _ => false end
    | VNone => true
    | VList l => match l with [] => true | _ => false end
    | _ => false
    end.
  (** req.GetOption(): the value if that option is set (else the zero value: None). *)
  Definition get_option (req : request) (o : hfield) : option gval :=
    match req (hf_camel o) with
    | VOneof (Some (n, v)) => if str_eqb n (hf_name o) then Some v else None
    | _ => None
    end.
  (** tmpl:668-687: the query values of one option of a oneof. *)
  Definition option_values (req : request) (o : hfield) : option (list str) :=
    match get_option req o with
    | None => Some []
    | Some v =>
        if is_zero (hf_gotype o) v then Some []
        else if negb (hf_base o) || hf_rep o then match json_marshal v with Some t => Some [t] | None => None end
        else Some [sprint (hf_gotype o) v]
    end.
  Fixpoint query_options (req : request) (os : list hfield) (m : values) : option values :=
    match os with
    | [] => Some m
    | o :: os' =>
        match option_values req o with
        | Some l => query_options req os' (add_values m (hf_query o) l)
        | None => None
        end
    end.
  Fixpoint query_oneofs (req : request) (os : list honeof) (m : values) : option values :=
    match os with
    | [] => Some m
    | o :: os' =>
        if str_eqb (ho_loc o) (T "query") then
          match query_options req (ho_options o) m with
          | Some m' => query_oneofs req os' m'
          | None => None
          end
        else query_oneofs req os' m
    end.

  (** tmpl:623-627: the sections of the path, evaluated. *)
  Definition gotype_of (b : hbind) (camel : str) : str :=
    match find (fun f => str_eqb (hf_camel f) camel) (hb_fields b) with Some f => hf_gotype f | None => [] end.
  Definition eval_section (b : hbind) (req : request) (s : section) : str :=
    match s with
    | SecLit p => p
    | SecEnum c => match req c with VZ z => itoa z | v => other_text K v end
    | SecVal c => sprint (gotype_of b c) (req c)
    end.
  Definition client_path (b : hbind) (req : request) : str :=
    join [c_slash] (map (eval_section b req) (path_sections b)).

  (** What goes over the wire. *)
  Record http_request := mkReq { rq_verb : str; rq_path : str; rq_query : str; rq_body : str }.

  (** tmpl:613-714, EncodeHTTP..Request, called by go-kit's client with an empty query (the instance's
      URL has none); None is a returned error.  tmpl:691-712: lines 693-700 only assign fields of
      [req] to themselves ([toRet] is the same pointer). *)
  Definition encode_request (b : hbind) (req : request) : option http_request :=
    match url_parse_path (client_path b req) with                                     (* 628-633 *)
    | None => None
    | Some path =>
        match query_fields req (hb_fields b) [] with
        | None => None
        | Some m1 =>
            match query_oneofs req (hb_oneofs b) m1 with
            | None => None
            | Some m2 =>
                if str_eqb (hb_verb b) (T "get")
                then Some (mkReq (to_upper (hb_verb b)) path (encode_values m2) [])
                else match pj_enc K req with
                     | Some data => Some (mkReq (to_upper (hb_verb b)) path (encode_values m2) data)
                     | None => None
                     end
            end
        end
    end.

  (** ** JSON arrays of scalars, as json.Unmarshal reads them into a slice *)
  Definition json_ws (c : N) : bool := N.eqb c 32 || N.eqb c 9 || N.eqb c 10 || N.eqb c 13.
  Fixpoint skip_ws (s : str) : str := match s with c :: s' => if json_ws c then skip_ws s' else s | [] => [] end.
  Fixpoint span (p : N -> bool) (s : str) : str * str :=
    match s with
    | c :: s' => if p c then let (a, b) := span p s' in (c :: a, b) else ([], s)
    | [] => ([], [])
    end.
  Definition num_char (c : N) : bool :=
    is_digit c || N.eqb c c_dash || N.eqb c 43 || N.eqb c c_dot || N.eqb c 101 || N.eqb c 69.
  (** The grammar of JSON numbers. *)
  Definition json_exp (s : str) : bool :=
    match s with
    | [] => true
    | c :: s' =>
        (N.eqb c 101 || N.eqb c 69)
        && let s2 := match s' with d :: r => if N.eqb d 43 || N.eqb d c_dash then r else s' | [] => [] end in
           match s2 with [] => false | _ => forallb is_digit s2 end
    end.
  Definition json_frac (s : str) : bool :=
    match s with
    | c :: s' => if N.eqb c c_dot then let (d, r) := span is_digit s' in match d with [] => false | _ => json_exp r end
                 else json_exp s
    | [] => true
    end.
  Definition json_number (s : str) : bool :=
    let s := match s with c :: r => if N.eqb c c_dash then r else s | [] => [] end in
    let (d, r) := span is_digit s in
    match d with
    | [] => false
    | c :: d' => (negb (N.eqb c 48) || match d' with [] => true | _ => false end) && json_frac r
    end.
  (** The inside of a string literal up to the closing quote, and the rest. *)
  Fixpoint json_string (s : str) : option (str * str) :=
    match s with
    | [] => None
    | c :: s' =>
        if N.eqb c c_dquote then Some ([], s')
        else if (c <? 32)%N then None
        else if N.eqb c c_backslash then
          match s' with
          | d :: s'' => match json_string s'' with Some (a, b) => Some (c :: d :: a, b) | None => None end
          | [] => None
          end
        else match json_string s' with Some (a, b) => Some (c :: a, b) | None => None end
    end.
  (** One element of type [p]; a null leaves the zero value. *)
  Definition json_elem (p : scalar_parse) (s : str) : option (gval * str) :=
    if has_prefix s (T "null") then
      Some (match p with PBool => VB false | PCopy => VS [] | PFloat _ => VF 0 | _ => VZ 0 end, skipn 4 s)
    else match p with
    | PBool => if has_prefix s (T "true") then Some (VB true, skipn 4 s)
               else if has_prefix s (T "false") then Some (VB false, skipn 5 s) else None
    | PCopy => match s with
               | c :: s' => if N.eqb c c_dquote
                            then match json_string s' with
                                 | Some (a, r) => match js_str K a with Some t => Some (VS t, r) | None => None end
                                 | None => None
                                 end
                            else None
               | [] => None
               end
    | PInt bits => let (lit, r) := span num_char s in
                   if json_number lit then match parse_int bits lit with Some z => Some (VZ z, r) | None => None end else None
    | PUint bits => let (lit, r) := span num_char s in
                    if json_number lit then match parse_uint bits lit with Some z => Some (VZ z, r) | None => None end else None
    | PFloat bits => let (lit, r) := span num_char s in
                     if json_number lit then match fl_parse K bits lit with Some f => Some (VF f, r) | None => None end else None
    end.
  Fixpoint json_elems (fuel : nat) (p : scalar_parse) (s : str) : option (list gval * str) :=
    match fuel with
    | 0 => None
    | S fuel =>
        match json_elem p (skip_ws s) with
        | None => None
        | Some (v, r) =>
            match skip_ws r with
            | c :: r' =>
                if N.eqb c 44 then match json_elems fuel p r' with Some (l, t) => Some (v :: l, t) | None => None end
                else if N.eqb c 93 then Some ([v], r') else None
            | [] => None
            end
        end
    end.
  Definition json_slice (p : scalar_parse) (s : str) : option (list gval) :=
    match skip_ws s with
    | c :: r =>
        if N.eqb c 91 then
          match skip_ws r with
          | d :: r' =>
              if N.eqb d 93 then match skip_ws r' with [] => Some [] | _ => None end
              else match json_elems (S (length r)) p r with
                   | Some (l, t) => match skip_ws t with [] => Some l | _ => None end
                   | None => None
                   end
          | [] => None
          end
        else if has_prefix (c :: r) (T "null") then match skip_ws (skipn 4 (c :: r)) with [] => Some [] | _ => None end
        else None
    | [] => None
    end.

  (** ** The server *)

  (** A strconv call (ht:370-388). *)
  Definition parse_scalar (p : scalar_parse) (s : str) : option gval :=
    match p with
    | PUint bits => option_map VZ (parse_uint bits s)
    | PInt bits => option_map VZ (parse_int bits s)
    | PBool => (* strconv.ParseBool *)
        if existsb (str_eqb s) [T "1"; T "t"; T "T"; T "TRUE"; T "true"; T "True"] then Some (VB true)
        else if existsb (str_eqb s) [T "0"; T "f"; T "F"; T "FALSE"; T "false"; T "False"] then Some (VB false)
        else None
    | PFloat bits => option_map VF (fl_parse K bits s)
    | PCopy => Some (VS s)
    end.

  (** The result of the decoder: a request and the [err] of the function (false: nil) that line 462
      returns with it; an early [return nil, err]; or code that Go does not compile. *)
  Inductive dres := DOk (r : request) (err : bool) | DErr | DBroken.

  (** ht:436-463 with several values: parse each; [err] is the function's err, which the check of
      line 444 sees for strings (whose assignment declares no err of its own). *)
  Fixpoint parse_each (p : scalar_parse) (err : bool) (arr : list str) : option (list gval) :=
    match arr with
    | [] => Some []
    | s :: arr' =>
        match (match p with PCopy => if err then None else Some (VS s) | _ => parse_scalar p s end) with
        | None => None
        | Some v => match parse_each p err arr' with Some l => Some (v :: l) | None => None end
        end
    end.

  (** The converted value of the variable [LocalName] and the function's [err] after it; [None] is an
      early return.  [arr] is LocalNameStrArr ([s] its first element); [shadow]: the snippet is inside
      a block, where [x, err :=] declares a new err. *)
  Inductive cres := CVal (v : gval) (err : bool) | CFail | CBroken.
  Definition run_convert (f : hfield) (arr : option (list str)) (s : str) (shadow : bool) (err : bool) : cres :=
    match hf_conv f with
    | CvScalar PCopy => CVal (VS s) err
    | CvScalar p =>
        match parse_scalar p s with
        | Some v => CVal v (if shadow then err else false)
        | None => if hf_check f then CFail else CVal VNone (if shadow then err else true)
        end
    | CvGarbage => CBroken
    | CvSingle =>                                                                     (* ht:410-418 *)
        if negb (hf_star f) then CFail              (* json.Unmarshal into something that is no pointer *)
        else if str_eqb s (T "null") then CVal (VSome (empty_msg K)) false
        else match js_dec K (hf_gotype f) false s with
             | Some v => CVal (VSome v) false
             | None => CFail
             end
    | CvRepeated (Some p) narrow check =>
        match arr with
        | None => CBroken                                                             (* no StrArr *)
        | Some arr =>
            if Nat.ltb 1 (length arr) then                                            (* ht:438-448 *)
              match parse_each p err arr with
              | Some l => if check && err then CFail else CVal (VList l) err
              | None => CFail
              end
            else                                                                      (* ht:453-457 *)
              let s' := match json_slice p s with Some _ => s | None => [91%N] ++ s ++ [93%N] end in
              match json_slice p s' with
              | Some l => CVal (VList l) false
              | None => if check then CFail else CVal (js_junk K (hf_gotype f) s') true
              end
        end
    | CvRepeated None narrow check =>                                                 (* ht:459 *)
        match js_dec K (hf_gotype f) true s with
        | Some v => CVal v false
        | None => if check then CFail else CVal (js_junk K (hf_gotype f) s) true
        end
    end.
  (** The assigned expression; None: Go has no such expression. *)
  Fixpoint run_tconv (f : hfield) (t : tconv) (v : gval) : option gval :=
    match t with
    | TcVar => Some v
    | TcCast _ => Some v        (* the value was parsed for 32 bits *)
    | TcAddr => Some (VSome v)
    | TcAddrCast _ => None
    | TcWrap _ _ _ x => match run_tconv f x v with Some w => Some (VOneof (Some (hf_name f, w))) | None => None end
    end.
  Definition assign (f : hfield) (c : cres) (r : request) : dres :=
    match c with
    | CFail => DErr
    | CBroken => DBroken
    | CVal v err => match run_tconv f (hf_tconv f) v with Some w => DOk (upd r (hf_camel f) w) err | None => DBroken end
    end.

  (** ht:289-315, Field.GenQueryUnmarshaler. *)
  Definition decode_field (vars : gomap str) (q : values) (f : hfield) (r : request) (err : bool) : dres :=
    if str_eqb (hf_loc f) (T "path") then
      let s := match mget vars (hf_query f) with Some s => s | None => [] end in
      assign f (run_convert f None s false err) r
    else
      match mget q (hf_query f) with
      | Some (s :: arr) => assign f (run_convert f (Some (s :: arr)) s true err) r
      | Some [] => DErr           (* StrArr[0] would panic; no entry of a parsed query is empty *)
      | None => DOk r err
      end.
  (** tmpl:451-455 *)
  Fixpoint decode_fields (vars : gomap str) (q : values) (fs : list hfield) (r : request) (err : bool) : dres :=
    match fs with
    | [] => DOk r err
    | f :: fs' =>
        if str_eqb (hf_loc f) (T "body") then decode_fields vars q fs' r err
        else match decode_field vars q f r err with
             | DOk r' err' => decode_fields vars q fs' r' err'
             | x => x
             end
    end.
  (** ht:319-357, OneofField.GenQueryUnmarshaler, for a oneof in the query. *)
  Definition decode_oneof (q : values) (o : honeof) (r : request) (err : bool) : dres :=
    let set := filter (fun p => match mget q (hf_query p) with Some _ => true | None => false end) (ho_options o) in
    match set with
    | [] => DOk r err
    | [p] => match mget q (hf_query p) with
             | Some (s :: arr) => assign p (run_convert p (Some (s :: arr)) s true err) r
             | _ => DErr
             end
    | _ => DErr
    end.
  (** tmpl:457-461 *)
  Fixpoint decode_oneofs (q : values) (os : list honeof) (r : request) (err : bool) : dres :=
    match os with
    | [] => DOk r err
    | o :: os' =>
        if str_eqb (ho_loc o) (T "query") then
          match decode_oneof q o r err with
          | DOk r' err' => decode_oneofs q os' r' err'
          | x => x
          end
        else decode_oneofs q os' r err
    end.
  (** tmpl:421-463, DecodeHTTP..Request; [zero] is the zero value of the request type. *)
  Definition decode_request (zero : request) (b : hbind) (vars : gomap str) (h : http_request) : dres :=
    let q := parse_query (rq_query h) in
    let go r := match decode_fields vars q (hb_fields b) r false with
                | DOk r' err' => decode_oneofs q (hb_oneofs b) r' err'
                | x => x
                end in
    match rq_body h with
    | [] => go zero
    | _ => match pj_dec K (rq_body h) with Some r => go r | None => DErr end           (* 428-443 *)
    end.

  (** gorilla/mux: a part of a path template: text, or one {name} with text around it (a name with a
      pattern, or several names in a part, are not modelled: None). *)
  Definition mux_part (t p : str) : option (gomap str) :=
    if has_brace t then
      let (pre, rest) := cut_at c_lbrace t in
      let (name, suf) := cut_at c_rbrace rest in
      if has_brace pre || has_brace name || has_brace suf || contains1 name c_colon then None
      else if has_prefix p pre && has_suffix p suf && Nat.ltb (length pre + length suf) (length p)
           then Some [(name, firstn (length p - length pre - length suf) (skipn (length pre) p))]
           else None
    else if str_eqb t p then Some [] else None.
  Fixpoint mux_parts (ts ps : list str) : option (gomap str) :=
    match ts, ps with
    | [], [] => Some []
    | t :: ts', p :: ps' =>
        match mux_part t p, mux_parts ts' ps' with
        | Some a, Some b => Some (a ++ b)
        | _, _ => None
        end
    | _, _ => None
    end.
  (** The router redirects a path that path.Clean changes: an empty part before the end, or a '.' or
      '..' part.  [parts]: what follows the first '/'. *)
  Fixpoint clean_parts (ps : list str) : bool :=
    match ps with
    | [] => true
    | p :: ps' => negb (str_eqb p (T ".")) && negb (str_eqb p (T ".."))
                  && (match p, ps' with [], _ :: _ => false | _, _ => true end) && clean_parts ps'
    end.
  Definition clean_path (path : str) : bool :=
    match split1 c_slash path with [] :: ((_ :: _) as ps) => clean_parts ps | _ => false end.
  Definition mux_match (tmpl path : str) : option (gomap str) :=
    if clean_path path then mux_parts (split1 c_slash tmpl) (split1 c_slash path) else None.

  (** tmpl:339-351, MakeHTTPHandler: the routes in the order of the bindings; the first that matches
      verb and path serves the request. *)
  Fixpoint serve (routes : list (str * hbind)) (h : http_request) : option (str * hbind * gomap str) :=
    match routes with
    | [] => None
    | (m, b) :: rest =>
        if str_eqb (to_upper (hb_verb b)) (rq_verb h) then
          match mux_match (hb_path b) (rq_path h) with
          | Some vars => Some (m, b, vars)
          | None => serve rest h
          end
        else serve rest h
    end.
  Definition make_routes (ms : list hmeth) : list (str * hbind) :=
    flat_map (fun m => map (fun b => (hm_name m, b)) (hm_binds m)) ms.
End Gen.
