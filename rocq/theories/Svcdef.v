(** Model of svcdef/svcdef.go and svcdef/resolvetypes.go: from the syntax trees of the .pb.go files to the
    definition.  Not modelled: go/parser (a file is its syntax tree, or None if it does not parse), the texts of
    errors, the log. *)
From Coq Require Import Permutation.
From Verif Require Import GoStr GoStrProofs GoMap Unquote SvcTypes.

(** ** Syntax trees (go/ast), as far as the code looks at them *)
Inductive gexpr := GIdent (n : str) | GStar (x : gexpr) | GArr (x : gexpr) | GMap (k v : gexpr) | GSel (x : gexpr) (sel : str) | GOther.
(** A struct field; [gf_tag] is the text between the back quotes. *)
Record gfield := mkGF { gf_names : list str; gf_type : gexpr; gf_tag : option str }.
(** A method of an interface, or an embedded interface (no names).  [MFunc]: the types of the entries of the lists of
    parameters and of results. *)
Inductive gmtype := MFunc (params results : list gexpr) | MElse.
Record gmethod := mkGM { gm_names : list str; gm_type : gmtype }.
Inductive gtype := TIface (ms : list gmethod) | TStruct (fs : list gfield) | TIdent (n : str) | TElse.
Record tspec := mkTS { ts_name : str; ts_type : gtype }.
(** A declaration: a GenDecl with the type specs in it, or a function with its receiver. *)
Inductive gdecl := GDGen (specs : list tspec) | GDFunc (name : str) (recv : option (list gexpr)).
Record gofile := mkGo { go_pkg : str; go_decls : list gdecl }.

(** A value, an error or a panic. *)
Inductive sres (A : Type) := SOk (a : A) | SErr | SPanic.
Arguments SOk {A} a.
Arguments SErr {A}.
Arguments SPanic {A}.
Definition sbind {A B} (x : sres A) (k : A -> sres B) : sres B := match x with SOk a => k a | SErr => SErr | SPanic => SPanic end.
Fixpoint smap {A B} (f : A -> sres B) (l : list A) : sres (list B) :=
  match l with [] => SOk [] | x :: l' => sbind (f x) (fun y => sbind (smap f l') (fun ys => SOk (y :: ys))) end.

(** ** Struct tags (package reflect) *)
(** reflect/type.go, StructTag.Lookup: the end of the name. *)
Definition name_char (c : N) : bool := (32 <? c)%N && negb (N.eqb c c_colon) && negb (N.eqb c c_dquote) && negb (N.eqb c 127).
Fixpoint span_name (s : str) : str * str :=
  match s with
  | c :: s' => if name_char c then let (a, b) := span_name s' in (c :: a, b) else ([], s)
  | [] => ([], [])
  end.
(** The literal after the opening quote, without the closing one, and what follows; None: there is no end. *)
Fixpoint span_quoted (s : str) : option (str * str) :=
  match s with
  | [] => None
  | c :: s' =>
      if N.eqb c c_dquote then Some ([], s')
      else if N.eqb c c_backslash then
        match s' with
        | [] => None
        | d :: s'' => match span_quoted s'' with Some (a, b) => Some (c :: d :: a, b) | None => None end
        end
      else match span_quoted s' with Some (a, b) => Some (c :: a, b) | None => None end
  end.
(** StructTag.Get: the empty text if the key is not there.  The fuel is the length of the tag. *)
Fixpoint tag_get (fuel : nat) (tag key : str) : str :=
  match fuel with
  | 0 => []
  | S fuel =>
      match trim_left1 c_space tag with
      | [] => []
      | t =>
          match span_name t with
          | ([], _) => []
          | (name, c :: q :: rest) =>
              if N.eqb c c_colon && N.eqb q c_dquote then
                match span_quoted rest with
                | None => []
                | Some (body, rest') =>
                    if str_eqb name key then match unquote (c_dquote :: body ++ [c_dquote]) with Some v => v | None => [] end
                    else tag_get fuel rest' key
                end
              else []
          | (_, _) => []
          end
      end
  end.
Definition struct_tag_get (tag key : str) : str := tag_get (S (length tag)) tag key.

(** strings.Index(s, "=") and what follows it; None is -1. *)
Fixpoint after_eq (s : str) : option str :=
  match s with [] => None | c :: s' => if N.eqb c 61 then Some s' else after_eq s' end.
(** svcdef.go:554-564: the protobuf name of a field; SPanic is the index panic of line 560. *)
Definition pb_field_name (tag : option str) : sres str :=
  match tag with
  | None => SOk []
  | Some t =>
      match split1 44 (struct_tag_get t (T "protobuf")) with
      | _ :: _ :: _ :: s3 :: more =>
          match after_eq s3 with
          | Some n => SOk n
          | None => match more with
                    | [] => SPanic
                    | s4 :: _ => match after_eq s4 with Some n => SOk n | None => SOk [] end
                    end
          end
      | _ => SOk []
      end
  end.

(** ** Types and fields *)
Definition empty_ft : ftype := mkFT [] None None None None false false.
(** svcdef.go:405-416, the value type of a map. *)
Fixpoint map_value (e : gexpr) (t : ftype) : ftype :=
  match e with
  | GIdent n => mkFT n (ft_enum t) (ft_oneof t) (ft_msg t) (ft_map t) (ft_star t) (ft_array t)
  | GStar x => map_value x (mkFT (ft_name t) (ft_enum t) (ft_oneof t) (ft_msg t) (ft_map t) true (ft_array t))
  | _ => t
  end.
(** svcdef.go:395-419, NewMap: None is the panic of the type assertion on the key. *)
Definition new_map (k v : gexpr) : option (ftype * ftype) :=
  match k with GIdent n => Some (mkFT n None None None None false false, map_value v empty_ft) | _ => None end.
(** svcdef.go:553-595, typeFollower; [ofs] is the package-level map oneofs; None is a panic. *)
Fixpoint follow (ofs : gomap (list field)) (e : gexpr) (t : ftype) : option ftype :=
  match e with
  | GIdent n => Some (mkFT (ft_name t ++ n) (ft_enum t) (match mget ofs n with Some o => Some o | None => ft_oneof t end) (ft_msg t) (ft_map t) (ft_star t) (ft_array t))
  | GStar x => follow ofs x (mkFT (ft_name t) (ft_enum t) (ft_oneof t) (ft_msg t) (ft_map t) true (ft_array t))
  | GArr x => follow ofs x (mkFT (if ft_array t then T "[]" ++ ft_name t else ft_name t) (ft_enum t) (ft_oneof t) (ft_msg t) (ft_map t) (ft_star t) true)
  | GMap k v => match new_map k v with
                | Some m => Some (mkFT (ft_name t) (ft_enum t) (ft_oneof t) (ft_msg t) (Some m) (ft_star t) (ft_array t))
                | None => None
                end
  | GSel x sel => Some (mkFT (ft_name t ++ (match x with GIdent p => p ++ [c_dot] | _ => [] end) ++ sel) (ft_enum t) (ft_oneof t) (ft_msg t) (ft_map t) (ft_star t) (ft_array t))
  | GOther => Some t
  end.
(** svcdef.go:531-609, NewField. *)
Definition new_field (ofs : gomap (list field)) (f : gfield) : sres field :=
  match gf_names f with
  | [] => SPanic
  | n :: _ => sbind (pb_field_name (gf_tag f)) (fun pb => match follow ofs (gf_type f) empty_ft with Some t => SOk (mkFld n pb t) | None => SPanic end)
  end.

Section D.
  (** unicode.IsUpper *)
  Variable upper : N -> bool.
  Definition go_exported (n : str) : bool := match n with c :: _ => upper c | [] => false end.

  (** svcdef.go:357-380, NewMessage: the fields (XXX_ fields and the ones that are not exported are left out). *)
  Fixpoint new_fields (ofs : gomap (list field)) (fs : list gfield) : sres (list field) :=
    match fs with
    | [] => SOk []
    | f :: fs' =>
        match gf_names f with
        | [] => SPanic
        | n :: _ =>
            if has_prefix n (T "XXX_") || negb (go_exported n) then new_fields ofs fs'
            else sbind (new_field ofs f) (fun x => sbind (new_fields ofs fs') (fun xs => SOk (x :: xs)))
        end
    end.
  Definition new_message (ofs : gomap (list field)) (name : str) (fs : list gfield) : sres message :=
    sbind (new_fields ofs fs) (fun xs => SOk (mkMsg name xs)).

  (** svcdef.go:490-515, makeFieldType *)
  Definition make_field_type (e : gexpr) : sres ftype :=
    match e with
    | GStar (GSel _ sel) => SOk (mkFT sel None None None None true false)
    | GStar (GIdent n) => SOk (mkFT n None None None None true false)
    | _ => SErr
    end.
  (** svcdef.go:448-526, NewServiceMethod.  (Line 484 returns ErrNotSupported wrapped.)  A method without results has
      no result list: line 460 panics. *)
  Definition new_service_method (m : gmethod) : sres smethod :=
    match gm_names m with
    | [] => SPanic
    | n :: _ =>
        match gm_type m with
        | MElse => SErr
        | MFunc params results =>
            match results with
            | [] => SPanic
            | rs :: _ =>
                match params with
                | _ :: rq :: _ => sbind (make_field_type rq) (fun q => sbind (make_field_type rs) (fun r => SOk (mkSMeth n q r [])))
                | _ => SErr
                end
            end
        end
    end.
  (** svcdef.go:422-443, NewService: methods that are not exported are left out.  The comparison of line 435 is
      with the error that line 484 has wrapped: it never holds. *)
  Fixpoint new_methods (ms : list gmethod) : sres (list smethod) :=
    match ms with
    | [] => SOk []
    | m :: ms' =>
        match gm_names m with
        | [] => SPanic
        | n :: _ =>
            if negb (go_exported n) then new_methods ms'
            else sbind (new_service_method m) (fun x => sbind (new_methods ms') (fun xs => SOk (x :: xs)))
        end
    end.
  Definition new_service (name : str) (ms : list gmethod) : sres service :=
    sbind (new_methods ms) (fun xs => SOk (mkSvc (trim_suffix name (T "Server")) xs)).

  (** svcdef.go:141-155, retrieveTypeSpecs *)
  Definition type_specs (f : gofile) : list tspec :=
    flat_map (fun d => match d with GDGen l => l | GDFunc _ _ => [] end) (go_decls f).
  (** svcdef.go:231-271, the first loop of New over the type specs: the service, and the names of the oneof
      interfaces. *)
  Fixpoint iface_loop (ts : list tspec) (svc : option service) (ones : list str) : sres (option service * list str) :=
    match ts with
    | [] => SOk (svc, ones)
    | t :: ts' =>
        match ts_type t with
        | TIface ms =>
            if has_prefix (ts_name t) (T "Unsafe") then iface_loop ts' svc ones
            else if negb (has_suffix (ts_name t) (T "Server")) then
              if has_prefix (ts_name t) (T "is") then iface_loop ts' svc (ts_name t :: ones) else iface_loop ts' svc ones
            else sbind (new_service (ts_name t) ms) (fun s => iface_loop ts' (Some s) ones)
        | _ => iface_loop ts' svc ones
        end
    end.
  (** svcdef.go:273-285: the structs that implement a oneof interface.  SPanic: a function of that name without a
      pointer receiver. *)
  Fixpoint oneof_types (ds : list gdecl) (ones : list str) (m : gomap str) : sres (gomap str) :=
    match ds with
    | [] => SOk m
    | GDFunc n recv :: ds' =>
        if existsb (str_eqb n) ones then
          match recv with
          | Some (GStar (GIdent s) :: _) => oneof_types ds' ones (mset m s n)
          | _ => SPanic
          end
        else oneof_types ds' ones m
    | GDGen _ :: ds' => oneof_types ds' ones m
    end.
  (** svcdef.go:288-310: the options of the oneofs, by interface. *)
  Definition with_msg (f : field) (name : str) : field :=
    mkFld (fd_name f) (fd_pbname f)
      (mkFT (ft_name (fd_type f)) (ft_enum (fd_type f)) (ft_oneof (fd_type f)) (Some (MSynth name)) (ft_map (fd_type f)) (ft_star (fd_type f)) (ft_array (fd_type f))).
  Fixpoint option_loop (ts : list tspec) (otypes : gomap str) (ofs : gomap (list field)) : sres (gomap (list field)) :=
    match ts with
    | [] => SOk ofs
    | t :: ts' =>
        match ts_type t with
        | TStruct fs =>
            if negb (go_exported (ts_name t)) then option_loop ts' otypes ofs
            else match mget otypes (ts_name t) with
                 | None => option_loop ts' otypes ofs
                 | Some iface =>
                     sbind (new_message ofs (ts_name t) fs) (fun m =>
                       match ms_fields m with
                       | [] => SPanic
                       | f :: _ => option_loop ts' otypes (mset ofs iface (match mget ofs iface with Some l => l | None => [] end ++ [with_msg f (ms_name m)]))
                       end)
                 end
        | _ => option_loop ts' otypes ofs
        end
    end.
  (** svcdef.go:313-338, the last loop: enums and messages. *)
  Fixpoint type_loop (ts : list tspec) (otypes : gomap str) (ofs : gomap (list field)) : sres (list message * list str) :=
    match ts with
    | [] => SOk ([], [])
    | t :: ts' =>
        match ts_type t with
        | TIdent n =>
            if str_eqb n (T "int32") then sbind (type_loop ts' otypes ofs) (fun '(ms, es) => SOk (ms, ts_name t :: es))
            else type_loop ts' otypes ofs
        | TStruct fs =>
            if negb (go_exported (ts_name t)) then type_loop ts' otypes ofs
            else match mget otypes (ts_name t) with
                 | Some _ => type_loop ts' otypes ofs
                 | None => sbind (new_message ofs (ts_name t) fs) (fun m => sbind (type_loop ts' otypes ofs) (fun '(ms, es) => SOk (m :: ms, es)))
                 end
        | _ => type_loop ts' otypes ofs
        end
    end.
  (** svcdef.go:211-338, one file: what it adds to the definition, and the map oneofs after it.  (An error or a panic in
      the middle of a file can leave more in oneofs than modelled.) *)
  Definition new_file (ofs : gomap (list field)) (sd : svcdef) (f : gofile) : sres (svcdef * gomap (list field)) :=
    let ts := type_specs f in
    sbind (iface_loop ts (sd_service sd) []) (fun '(svc, ones) =>
    sbind (match ofs with
           | [] => sbind (oneof_types (go_decls f) ones []) (fun otypes => sbind (option_loop ts otypes []) (fun o => SOk (otypes, o)))
           | _ => SOk ([], ofs)
           end) (fun '(otypes, ofs') =>
    sbind (type_loop ts otypes ofs') (fun '(ms, es) =>
    SOk (mkSvcdef (go_pkg f) (sd_messages sd ++ ms) (sd_enums sd ++ es) svc, ofs')))).
  (** svcdef.go:210-339, the loop over the map of files, in the order of the map. *)
  Fixpoint new_files (ofs : gomap (list field)) (sd : svcdef) (fs : list (option gofile)) : sres (svcdef * gomap (list field)) :=
    match fs with
    | [] => SOk (sd, ofs)
    | None :: _ => SErr
    | Some f :: fs' => sbind (new_file ofs sd f) (fun '(sd', ofs') => new_files ofs' sd' fs')
    end.
  Definition empty_svcdef : svcdef := mkSvcdef [] [] [] None.
End D.

(** ** resolvetypes.go *)
Inductive box := BMsg (i : nat) | BEnum (i : nat).
(** resolvetypes.go:12-21, newTypeMap *)
Fixpoint add_msgs (i : nat) (ms : list message) (m : gomap box) : gomap box :=
  match ms with [] => m | x :: ms' => add_msgs (S i) ms' (mset m (ms_name x) (BMsg i)) end.
Fixpoint add_enums (i : nat) (es : list str) (m : gomap box) : gomap box :=
  match es with [] => m | x :: es' => add_enums (S i) es' (mset m x (BEnum i)) end.
Definition new_type_map (sd : svcdef) : gomap box := add_enums 0 (sd_enums sd) (add_msgs 0 (sd_messages sd) []).
(** resolvetypes.go:53-61: what the entry does to the type. *)
Definition box_type (tm : gomap box) (t : ftype) : ftype :=
  match mget tm (ft_name t) with
  | None => t
  | Some (BEnum i) => mkFT (ft_name t) (Some i) (ft_oneof t) (ft_msg t) (ft_map t) (ft_star t) (ft_array t)
  | Some (BMsg i) => mkFT (ft_name t) (ft_enum t) (ft_oneof t) (Some (MDef i)) (ft_map t) (ft_star t) (ft_array t)
  end.
(** resolvetypes.go:41-61, setType *)
Definition set_type (tm : gomap box) (t : ftype) : ftype :=
  match ft_map t with
  | Some (k, v) => if ft_star v then mkFT (ft_name t) (ft_enum t) (ft_oneof t) (ft_msg t) (Some (k, box_type tm v)) (ft_star t) (ft_array t)
                   else box_type tm t
  | None => box_type tm t
  end.
(** resolvetypes.go:26-38, resolveTypes *)
Definition set_field (tm : gomap box) (f : field) : field := mkFld (fd_name f) (fd_pbname f) (set_type tm (fd_type f)).
Definition set_message (tm : gomap box) (m : message) : message := mkMsg (ms_name m) (map (set_field tm) (ms_fields m)).
Definition set_method (tm : gomap box) (m : smethod) : smethod := mkSMeth (sm_name m) (set_type tm (sm_req m)) (set_type tm (sm_resp m)) (sm_bindings m).
Definition resolve_types (sd : svcdef) : svcdef :=
  let tm := new_type_map sd in
  mkSvcdef (sd_pkg sd) (map (set_message tm) (sd_messages sd)) (sd_enums sd)
    (match sd_service sd with Some s => Some (mkSvc (sv_name s) (map (set_method tm) (sv_methods s))) | None => None end).

(** svcdef.go:207-340, New up to consolidateHTTP: the definition and the map oneofs it leaves behind. *)
Definition new_go (upper : N -> bool) (ofs : gomap (list field)) (fs : list (option gofile)) : sres (svcdef * gomap (list field)) :=
  sbind (new_files upper ofs empty_svcdef fs) (fun '(sd, ofs') => SOk (resolve_types sd, ofs')).
