(** Model of svcdef/consolidate_http.go. *)
From Verif Require Import GoStr Scanner Lexer Unquote Parser Strs SvcTypes.

(** errors.Cause (github.com/pkg/errors): the innermost error. *)
Fixpoint cause (e : perr) : perr := match e with EWrap _ e' => cause e' | _ => e end.
(** consolidate_http.go:20-23, isOptionalError. *)
Definition is_optional_error (e : perr) : bool := match cause e with EOptional _ _ _ => true | _ => false end.
(** consolidate_http.go:25-30, isEOF. *)
Definition is_eof (e : perr) : bool := match cause e with EUnexpectedEOF => true | _ => false end.

(** consolidate_http.go:141-160, getVerb.  Verb and path of a custom pattern: the last "kind" and the
    last "path". *)
Fixpoint custom_verb (fs : list hfield) (verb path : str) : str * str :=
  match fs with
  | [] => (verb, path)
  | f :: fs' =>
      if str_eqb (hf_kind f) (T "kind") then custom_verb fs' (hf_value f) path
      else if str_eqb (hf_kind f) (T "path") then custom_verb fs' verb (hf_value f)
      else custom_verb fs' verb path
  end.
Definition is_verb (k : str) : bool :=
  str_eqb k (T "get") || str_eqb k (T "put") || str_eqb k (T "post") || str_eqb k (T "delete")
  || str_eqb k (T "patch").
Fixpoint field_verb (fs : list hfield) : str * str :=
  match fs with
  | [] => ([], [])
  | f :: fs' => if is_verb (hf_kind f) then (hf_kind f, hf_value f) else field_verb fs'
  end.
Definition get_verb (b : hbinding) : str * str :=
  match hb_custom b with
  | [] => field_verb (hb_fields b)
  | fs => custom_verb fs [] []
  end.

(** What the regular expression {(.star?)} matches after the opening brace: the shortest run of
    non-newline runes up to a closing brace. *)
Fixpoint until_close (s : str) : option str :=
  match s with
  | [] => None
  | c :: s' =>
      if N.eqb c c_rbrace then Some []
      else if N.eqb c c_nl then None
      else match until_close s' with Some w => Some (c :: w) | None => None end
  end.
(** FindAllString of {(.star?)}, braces removed (consolidate_http.go:192-204): leftmost matches, each
    search beginning after the previous match.  [skip] counts the runes of the current match still to
    be passed over. *)
Fixpoint braced_parts (skip : nat) (s : str) : list str :=
  match s with
  | [] => []
  | c :: s' =>
      match skip with
      | S k => braced_parts k s'
      | O =>
          if N.eqb c c_lbrace then
            match until_close s' with
            | Some w => filter (fun d => negb (N.eqb d c_lbrace)) w :: braced_parts (S (length w)) s'
            | None => braced_parts 0 s'
            end
          else braced_parts 0 s'
      end
  end.
Definition get_path_params (b : hbinding) : list str := braced_parts 0 (snd (get_verb b)).

(** strings.Split(s, ".")[0] *)
Definition before_dot (s : str) : str := match split1 c_dot s with w :: _ => w | [] => [] end.

(** consolidate_http.go:164-190, paramLocation. *)
Fixpoint body_takes (name : str) (fs : list hfield) : bool :=
  match fs with
  | [] => false
  | f :: fs' =>
      if str_eqb (hf_kind f) (T "body") then
        if str_eqb (hf_value f) (T "*") then true
        else if str_eqb (hf_value f) name then true
        else if str_eqb (go_camel_case (before_dot (hf_value f))) name then true
        else body_takes name fs'
      else body_takes name fs'
  end.
Definition param_location (name : str) (b : hbinding) : str :=
  if existsb (fun p => str_eqb (go_camel_case (before_dot p)) name) (get_path_params b) then T "path"
  else if body_takes name (hb_fields b) then T "body"
  else T "query".

(** consolidate_http.go:112-126, createParams: the new binding. *)
Definition create_params (fields : list field) (b : hbinding) : sbinding :=
  let '(verb, path) := get_verb b in
  mkSBind verb path (map (fun f => mkParam f (param_location (fd_name f) b)) fields).

Inductive cerr :=
| ECParse (e : perr)           (* consolidate_http.go:52 *)
| ECNoMethod (name : str).     (* 133 *)
(** Result: a value, an error, or a nil-pointer panic (meth.RequestType.Message == nil, line 118). *)
Inductive cres (A : Type) := COk (a : A) | CErr (e : cerr) | CPanic.
Arguments COk {A} a.
Arguments CErr {A} e.
Arguments CPanic {A}.

(** Lines 96-108 and 129-139 for one parsed method: find the first Go method of that (camel-cased)
    name and append the bindings to it. *)
Fixpoint assemble_method (msgs : list message) (ms : list smethod) (hm : hmethod) : cres (list smethod) :=
  match ms with
  | [] => CErr (ECNoMethod (hm_name hm))
  | m :: ms' =>
      if str_eqb (sm_name m) (go_camel_case (hm_name hm)) then
        match hm_bindings hm, ft_msg (sm_req m) with
        | [], _ => COk (m :: ms')
        | _ :: _, None => CPanic
        | bs, Some r =>
            COk (mkSMeth (sm_name m) (sm_req m) (sm_resp m)
                   (sm_bindings m ++ map (create_params (fields_of msgs r)) bs) :: ms')
        end
      else match assemble_method msgs ms' hm with
           | COk ms'' => COk (m :: ms'')
           | CErr e => CErr e
           | CPanic => CPanic
           end
  end.
Fixpoint assemble_methods (msgs : list message) (ms : list smethod) (hms : list hmethod) : cres (list smethod) :=
  match hms with
  | [] => COk ms
  | hm :: hms' =>
      match assemble_method msgs ms hm with
      | COk ms' => assemble_methods msgs ms' hms'
      | CErr e => CErr e
      | CPanic => CPanic
      end
  end.
(** consolidate_http.go:95-139, assembleHTTPParams.  A nil service has no methods. *)
Definition assemble_http_params (sd : svcdef) (hsvc : hservice) : cres svcdef :=
  match sd_service sd with
  | None => match hs_methods hsvc with [] => COk sd | hm :: _ => CErr (ECNoMethod (hm_name hm)) end
  | Some sv =>
      match assemble_methods (sd_messages sd) (sv_methods sv) (hs_methods hsvc) with
      | COk ms => COk (mkSvcdef (sd_pkg sd) (sd_messages sd) (sd_enums sd) (Some (mkSvc (sv_name sv) ms)))
      | CErr e => CErr e
      | CPanic => CPanic
      end
  end.

(** consolidate_http.go:38-89, consolidateHTTP, over the proto files in the order in which the range
    over the map delivers them.  [g] is the package state of the scanner.  Lines 54-59 (nil
    arguments) cannot occur: New passes &rv and ParseService returns a service or an error. *)
Fixpoint consolidate (U : unicode) (g : globals) (sd : svcdef) (files : list str) : outcome (cres svcdef) :=
  match files with
  | [] => Ret (COk sd)
  | text :: files' =>
      match parse_text U g text with
      | Panic => Panic
      | OutOfFuel => OutOfFuel
      | Ret (r, g') =>
          match r with
          | POk hsvc _ =>
              match assemble_http_params sd hsvc with
              | COk sd' => consolidate U g' sd' files'
              | CErr e => Ret (CErr e)
              | CPanic => Panic
              end
          | PErr e =>
              if is_optional_error e then Ret (COk sd)
              else if is_eof e then consolidate U g' sd files'
              else Ret (CErr (ECParse e))
          | PPanic => Panic
          | PFuel => OutOfFuel
          end
      end
  end.
