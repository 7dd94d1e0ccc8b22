(** Model of gengokit/httptransport/httptransport.go, embeddable_funcs.go and types.go.  In this file
    a text is the list of the bytes of a Go string where the code looks at single bytes. *)
From Verif Require Import GoStr GoStrProofs GoMap Decimals Strs SvcTypes.

(** ** embeddable_funcs.go *)

(** embeddable_funcs.go:67-71, RemoveBraces. *)
Definition remove_braces (s : str) : str := replace1 c_rbrace [] (replace1 c_lbrace [] s).

(** [strings.ContainsAny(part, "{}")] *)
Definition has_brace (s : str) : bool := contains1 s c_lbrace || contains1 s c_rbrace.

(** embeddable_funcs.go:52-63, BuildParamMap: the loop at index [idx]. *)
Fixpoint param_loop (idx : nat) (parts : list str) (rv : gomap nat) : gomap nat :=
  match parts with
  | [] => rv
  | p :: ps => param_loop (S idx) ps (if has_brace p then mset rv (remove_braces p) idx else rv)
  end.
Definition build_param_map (tmpl : str) : gomap nat := param_loop 0 (split1 c_slash tmpl) [].

(** embeddable_funcs.go:21-37, PathParams: the loop at 32-34; [Panic] is an index out of range. *)
Fixpoint pick_params (parts : list str) (pmp : gomap nat) (rv : gomap str) : outcome (gomap str) :=
  match pmp with
  | [] => Ret rv
  | (k, v) :: pmp' =>
      match nth_error parts v with
      | Some w => pick_params parts pmp' (mset rv k w)
      | None => Panic
      end
  end.
(** The number of '/'-separated parts once the slashes at the end are gone (lines 25-26). *)
Definition parts_count (s : str) : nat := length (split1 c_slash (trim_right1 c_slash s)).
(** Ret None is the error of line 28. *)
Definition path_params (url tmpl : str) : outcome (option (gomap str)) :=
  if negb (Nat.eqb (parts_count tmpl) (parts_count url)) then Ret None
  else match pick_params (split1 c_slash url) (build_param_map tmpl) [] with
       | Ret m => Ret (Some m)
       | Panic => Panic
       | OutOfFuel => OutOfFuel
       end.

(** httptransport.go:537-548, DigitEnglish, after strings.Title (line 561). *)
Definition digit_english (c : N) : option str :=
  match c with
  | 48 => Some (T "Zero") | 49 => Some (T "One") | 50 => Some (T "Two") | 51 => Some (T "Three")
  | 52 => Some (T "Four") | 53 => Some (T "Five") | 54 => Some (T "Six") | 55 => Some (T "Seven")
  | 56 => Some (T "Eight") | 57 => Some (T "Nine")
  | _ => None
  end%N.
(** httptransport.go:556-565, EnglishNumber. *)
Definition english_number (i : Z) : str :=
  flat_map (fun c => match digit_english c with Some w => w | None => [] end) (itoa i).

(** httptransport.go:569-579, LowCamelName (unicode.ToLower on ASCII). *)
Definition low_camel_name (s : str) : str :=
  match go_camel_case s with [] => [] | c :: r => lower1 c :: r end.

(** httptransport.go:530-533, basePath. *)
Definition base_path (path : str) : str :=
  match split1 c_lbrace path with w :: _ => w | [] => [] end.

(** pkg/types.go:4-26, IsGoBaseType. *)
Definition go_base_types : list str :=
  [T "uint32"; T "uint64"; T "int32"; T "int64"; T "bool"; T "float32"; T "float64"; T "string"].
Definition is_go_base_type (s : str) : bool := existsb (str_eqb s) go_base_types.

(** [strings.Contains(s, sub)] *)
Fixpoint contains (s sub : str) : bool :=
  has_prefix s sub || match s with [] => false | _ :: s' => contains s' sub end.

(** ** Generated conversions.  The Go code builds Go source text; the model keeps which source text it
    is.  [elem]: the statement [x, err := strconv.ParseUint(s, 10, 32)] etc. *)
Inductive scalar_parse :=
| PUint (bits : nat)   (* %s, err := strconv.ParseUint(%s, 10, bits) *)
| PInt (bits : nat)    (* %s, err := strconv.ParseInt(%s, 10, bits) *)
| PBool                (* %s, err := strconv.ParseBool(%s) *)
| PFloat (bits : nat)  (* %s, err := strconv.ParseFloat(%s, bits) *)
| PCopy.               (* %s := %s *)

(** httptransport.go:369-388: the switch on the Go type; None: [fType] stays empty. *)
Definition scalar_table (gotype : str) : option scalar_parse :=
  if str_eqb gotype (T "uint32") then Some (PUint 32)
  else if str_eqb gotype (T "uint64") then Some (PUint 64)
  else if str_eqb gotype (T "int32") then Some (PInt 32)
  else if str_eqb gotype (T "int64") then Some (PInt 64)
  else if str_eqb gotype (T "bool") then Some PBool
  else if str_eqb gotype (T "float32") then Some (PFloat 32)
  else if str_eqb gotype (T "float64") then Some (PFloat 64)
  else if str_eqb gotype (T "string") then Some PCopy
  else None.

(** The source text of a conversion (httptransport.go:361-482). *)
Inductive convert :=
| CvScalar (p : scalar_parse)           (* line 481: Sprintf(fType, LocalName, LocalNameStr) *)
| CvGarbage                             (* line 481 with an empty fType: the text is %!(EXTRA ...) *)
| CvSingle                              (* 410-418, 467: var, composite literal, json.Unmarshal, error check *)
| CvRepeated (each : option scalar_parse) (narrow check : bool).
    (* 435-463: [each] is the loop over several values, emitted for base types; [narrow]: the cast of
       [converted] (430-434); [check]: the error check at the end (470-472). *)

(** The source text of the assigned expression (httptransport.go:488-512 and 115-120). *)
Inductive tconv :=
| TcVar                                  (* LocalName *)
| TcCast (t : str)                       (* t(LocalName) *)
| TcAddr                                 (* &LocalName *)
| TcAddrCast (t : str)                   (* &t(LocalName) *)
| TcWrap (addr : bool) (msg camel : str) (x : tconv). (* &msg{camel: x} or msg{camel: x} *)

(** types.go:40-82, Field. *)
Record hfield := mkHField {
  hf_name : str; hf_query : str; hf_camel : str; hf_low : str; hf_local : str; hf_loc : str;
  hf_gotype : str; hf_star : bool; hf_conv : convert; hf_check : bool; hf_tconv : tconv;
  hf_base : bool; hf_enum : bool; hf_rep : bool; hf_zero : str }.

(** What createDecodeConvertFunc, createDecodeTypeConversion and getZeroValue read of a Field. *)
Record hshape := mkShape { sh_gotype : str; sh_star : bool; sh_base : bool; sh_enum : bool; sh_rep : bool }.

(** httptransport.go:361-482, createDecodeConvertFunc.  The Contains tests of the templates for
    [[]byte] and [[]string] are kept: with the GoType without brackets they never hold, so the two
    branches under [[]string] have no constructor. *)
Definition create_decode_convert (f : hshape) : convert * bool :=
  if sh_enum f && negb (sh_rep f) then (CvScalar (PInt 32), true)                          (* 390-393 *)
  else if negb (sh_base f) || sh_rep f then                                                (* 396 *)
    if negb (sh_rep f) then (CvSingle, false)                                              (* 466-467 *)
    else
      (CvRepeated (if sh_base f && negb (contains (sh_gotype f) (T "[]byte"))              (* 437 *)
                   then scalar_table (sh_gotype f) else None)
                  (existsb (str_eqb (sh_gotype f)) [T "uint32"; T "int32"; T "float32"])   (* 431-434 *)
                  (negb (str_eqb (sh_gotype f) (T "string"))), false)                      (* 470-479 *)
  else match scalar_table (sh_gotype f) with                                               (* 481 *)
       | Some PCopy => (CvScalar PCopy, false)
       | Some p => (CvScalar p, true)
       | None => (CvGarbage, true)
       end.

(** httptransport.go:488-512, createDecodeTypeConversion. *)
Definition create_decode_tconv (f : hshape) : tconv :=
  if sh_rep f then TcVar
  else
    let cast := existsb (str_eqb (sh_gotype f)) [T "uint32"; T "int32"; T "float32"] || sh_enum f in
    if sh_base f && sh_star f
    then (if cast then TcAddrCast (sh_gotype f) else TcAddr)
    else (if cast then TcCast (sh_gotype f) else TcVar).

(** httptransport.go:514-526, getZeroValue (the source text). *)
Definition get_zero_value (f : hshape) : str :=
  if negb (sh_base f) || sh_rep f || sh_star f then T "nil"
  else if str_eqb (sh_gotype f) (T "bool") then T "false"
  else if str_eqb (sh_gotype f) (T "string") then [c_dquote; c_dquote]
  else T "0".

(** types.go:87-91, OneofField. *)
Record honeof := mkHOneof { ho_name : str; ho_loc : str; ho_options : list hfield }.
(** types.go:15-36, Binding (without the pointer to its method). *)
Record hbind := mkHBind {
  hb_label : str; hb_path : str; hb_base : str; hb_verb : str; hb_fields : list hfield; hb_oneofs : list honeof }.
(** types.go:5-11, Method. *)
Record hmeth := mkHMeth { hm_name : str; hm_req : str; hm_resp : str; hm_binds : list hbind }.

(** httptransport.go:86-124: one option of a oneof; [Panic] is the nil Type.Message of line 120. *)
Definition mref_name (ms : list message) (r : mref) : str :=
  match r with
  | MDef i => match nth_error ms i with Some m => ms_name m | None => [] end
  | MSynth n => n
  end.
Definition new_option (ms : list message) (meth : str) (parent : field) (o : field) : outcome hfield :=
  let t := fd_type o in
  let sh := mkShape (ft_name t) false
              (match ft_enum t, ft_map t with None, None => true | _, _ => false end)              (* 96-98 *)
              (match ft_enum t with Some _ => true | None => false end) (ft_array t) in
  match ft_msg t with
  | None => Panic
  | Some r =>
      Ret (mkHField (fd_name o) (fd_pbname o) (go_camel_case (fd_name parent)) (low_camel_name (fd_name o))
             (go_camel_case (fd_name o) ++ go_camel_case meth) [] (ft_name t) false
             (fst (create_decode_convert sh)) (snd (create_decode_convert sh))
             (TcWrap (negb (ft_star t)) (mref_name ms r) (go_camel_case (fd_name o)) (create_decode_tconv sh))
             (sh_base sh) (sh_enum sh) (sh_rep sh) (get_zero_value sh))
  end.
Fixpoint new_options (ms : list message) (meth : str) (parent : field) (os : list field) : outcome (list hfield) :=
  match os with
  | [] => Ret []
  | o :: os' =>
      match new_option ms meth parent o with
      | Ret x => match new_options ms meth parent os' with Ret xs => Ret (x :: xs) | Panic => Panic | OutOfFuel => OutOfFuel end
      | Panic => Panic
      | OutOfFuel => OutOfFuel
      end
  end.
(** httptransport.go:74-126: the first loop. *)
Fixpoint oneof_loop (ms : list message) (meth : str) (ps : list hparam) : outcome (list honeof) :=
  match ps with
  | [] => Ret []
  | p :: ps' =>
      match ft_oneof (fd_type (pm_field p)) with
      | None => oneof_loop ms meth ps'
      | Some os =>
          match new_options ms meth (pm_field p) os with
          | Ret xs => match oneof_loop ms meth ps' with
                      | Ret r => Ret (mkHOneof (fd_name (pm_field p)) (pm_loc p) xs :: r)
                      | Panic => Panic | OutOfFuel => OutOfFuel end
          | Panic => Panic
          | OutOfFuel => OutOfFuel
          end
      end
  end.
(** httptransport.go:139-175: one field of the second loop. *)
Definition field_shape (t : ftype) : hshape :=
  mkShape (ft_name t) (ft_star t)
    (match ft_msg t, ft_enum t, ft_map t with None, None, None => is_go_base_type (ft_name t) | _, _, _ => false end)
    (match ft_enum t with Some _ => true | None => false end) (ft_array t).
Definition new_hfield (meth : str) (p : hparam) : hfield :=
  let fd := pm_field p in
  let t := fd_type fd in
  let sh := field_shape t in
  mkHField (fd_name fd) (fd_pbname fd) (go_camel_case (fd_name fd)) (low_camel_name (fd_name fd))
    (go_camel_case (fd_name fd) ++ go_camel_case meth) (pm_loc p) (ft_name t) (ft_star t)
    (fst (create_decode_convert sh)) (snd (create_decode_convert sh)) (create_decode_tconv sh)
    (sh_base sh) (sh_enum sh) (sh_rep sh) [].
(** httptransport.go:127-199: the second loop. *)
Definition field_loop (meth : str) (ps : list hparam) : list hfield :=
  flat_map (fun p =>
    match ft_oneof (fd_type (pm_field p)) with
    | Some _ => []                                                    (* 132-134 *)
    | None => if str_eqb (ft_name (fd_type (pm_field p))) [] then []  (* 136-138 *)
              else [new_hfield meth p]
    end) ps.

(** httptransport.go:65-201, NewBinding. *)
Definition new_binding (ms : list message) (i : nat) (m : smethod) : outcome hbind :=
  match nth_error (sm_bindings m) i with
  | None => Panic
  | Some b =>
      match oneof_loop ms (sm_name m) (sb_params b) with
      | Ret os => Ret (mkHBind (sm_name m ++ english_number (Z.of_nat i)) (sb_path b) (base_path (sb_path b)) (sb_verb b)
                         (field_loop (sm_name m) (sb_params b)) os)
      | Panic => Panic
      | OutOfFuel => OutOfFuel
      end
  end.

(** httptransport.go:50-62, NewMethod. *)
Fixpoint new_bindings (ms : list message) (m : smethod) (is : list nat) : outcome (list hbind) :=
  match is with
  | [] => Ret []
  | i :: is' =>
      match new_binding ms i m with
      | Ret b => match new_bindings ms m is' with Ret bs => Ret (b :: bs) | Panic => Panic | OutOfFuel => OutOfFuel end
      | Panic => Panic
      | OutOfFuel => OutOfFuel
      end
  end.
Definition new_method (ms : list message) (m : smethod) : outcome hmeth :=
  match new_bindings ms m (seq 0 (length (sm_bindings m))) with
  | Ret bs => Ret (mkHMeth (sm_name m) (ft_name (sm_req m)) (ft_name (sm_resp m)) bs)
  | Panic => Panic
  | OutOfFuel => OutOfFuel
  end.

(** httptransport.go:33-47, NewHelper. *)
Fixpoint new_helper (ms : list message) (svc : list smethod) : outcome (list hmeth) :=
  match svc with
  | [] => Ret []
  | m :: svc' =>
      match sm_bindings m with
      | [] => new_helper ms svc'
      | _ => match new_method ms m with
             | Ret h => match new_helper ms svc' with Ret hs => Ret (h :: hs) | Panic => Panic | OutOfFuel => OutOfFuel end
             | Panic => Panic
             | OutOfFuel => OutOfFuel
             end
      end
  end.

(** httptransport.go:257-285, PathSections: which source text each section is.  A literal part becomes
    the Go string literal with that text between double quotes (not escaped: line 281). *)
Inductive section :=
| SecLit (part : str)        (* the part between double quotes *)
| SecEnum (camel : str)      (* fmt.Sprintf("%d", req.camel) *)
| SecVal (camel : str).      (* fmt.Sprint(req.camel) *)
Definition is_param_part (part : str) : bool :=
  Nat.ltb 2 (length part) && N.eqb (hd 0%N part) c_lbrace && N.eqb (last part 0%N) c_rbrace.
Definition path_sections (b : hbind) : list section :=
  map (fun part =>
    if is_param_part part then
      let camel := go_camel_case (remove_braces part) in
      if existsb (fun f => hf_enum f && str_eqb (hf_camel f) camel) (hb_fields b) then SecEnum camel else SecVal camel
    else SecLit part) (split1 c_slash (hb_path b)).
