(** Model of what baron's templates are applied to: gengokit.Data (gengokit/gengokit.go:54-88), the types of httptransport (types.go), the service of a
    definition (svcdef/svcdef.go), handlerData (gengokit/service/services.go:66-69); and of the Go source text that httptransport.go makes: createDecodeConvertFunc,
    createDecodeTypeConversion, PathSections and the two GenQueryUnmarshaler ("ht" below). *)
From Coq Require Import String.
From Verif Require Import GoStr GoMap SvcTypes HttpTransport Handler Generator Template Assets Cmdline.

(** gengokit.go:54-72, Data, without what is never used in a template.  [td_helper] is HTTPHelper.Methods. *)
Record tdata := mkTData { td_import : str; td_pb_import : str; td_package : str; td_service : service; td_helper : list hmeth; td_transport : str; td_version : str; td_date : str }.
(** Structs and pointers to structs that a template can reach. *)
Inductive obj :=
| OData (d : tdata) | OConfig (d : tdata) | OService (s : service) | OMethod (m : smethod) | OType (t : ftype)
| OHelper (l : list hmeth) | OHMeth (m : hmeth) | OBind (m : hmeth) (b : hbind) | OField (f : hfield) | OOneof (o : honeof)
| OHandler (svc : str) (ms : list smethod).

Definition text (s : string) : str := T s.
Definition nl : string := String (Ascii.ascii_of_nat 10) EmptyString.
Definition tab : string := String (Ascii.ascii_of_nat 9) EmptyString.
Definition quoted (s : str) : str := [c_dquote] ++ s ++ [c_dquote].

(** fmt.Sprintf(fType, a, b) for the fType of ht:369-388; with an empty fType fmt says that there are too many arguments. *)
Definition scalar_stmt (p : option scalar_parse) (a b : str) : str :=
  match p with
  | Some (PUint n) => a ++ T ", err := strconv.ParseUint(" ++ b ++ T ", 10, " ++ (if Nat.eqb n 32 then T "32" else T "64") ++ T ")"
  | Some (PInt n) => a ++ T ", err := strconv.ParseInt(" ++ b ++ T ", 10, " ++ (if Nat.eqb n 32 then T "32" else T "64") ++ T ")"
  | Some PBool => a ++ T ", err := strconv.ParseBool(" ++ b ++ T ")"
  | Some (PFloat n) => a ++ T ", err := strconv.ParseFloat(" ++ b ++ T ", " ++ (if Nat.eqb n 32 then T "32" else T "64") ++ T ")"
  | Some PCopy => a ++ T " := " ++ b
  | None => T "%!(EXTRA string=" ++ a ++ T ", string=" ++ b ++ T ")"
  end.
(** ht:409-413 *)
Definition single_tmpl : str := T "
var {{.LocalName}} {{if .StarExpr -}}*{{- end -}}{{.GoType}}
{{.LocalName}} = {{if .StarExpr -}}&{{- end -}}{{.GoType}}{}
err = json.Unmarshal([]byte({{.LocalName}}Str), {{.LocalName}})".
(** ht:415-418 *)
Definition error_tmpl : str := T "
if err != nil {
	return nil, errors.Wrapf(err, ""couldn't decode {{.LocalName}} from %v"", {{.LocalName}}Str)
}".
(** ht:435-463; [each] is the statement in the loop, [converted] what is assigned *)
Definition repeated_tmpl (each converted : str) : str := T "
var {{.LocalName}} []{{if .StarExpr -}}*{{- end -}}{{.GoType}}
{{- if and (.IsBaseType) (not (Contains .GoType ""[]byte""))}}
if len({{.LocalName}}StrArr) > 1 {
	{{- if (Contains .GoType ""[]string"")}}
	{{.LocalName}} = {{.LocalName}}StrArr
	{{- else}}
	{{.LocalName}} = make([]{{if .StarExpr -}}*{{- end -}}{{.GoType}}, len({{.LocalName}}StrArr))
	for i, v := range {{.LocalName}}StrArr {
	" ++ each ++ error_tmpl ++ T "
		{{.LocalName}}[i] = " ++ converted ++ T "
	}
	{{- end}}
} else {
{{- end}}
	{{- if (Contains .GoType ""[]string"")}}
		{{.LocalName}} = strings.Split({{.LocalName}}Str, "","")
	{{- else if and (and .IsBaseType .Repeated) (not (Contains .GoType ""[]byte""))}}
	err = json.Unmarshal([]byte({{.LocalName}}Str), &{{.LocalName}})
	if err != nil {
		{{.LocalName}}Str = ""["" + {{.LocalName}}Str + ""]""
	}
	err = json.Unmarshal([]byte({{.LocalName}}Str), &{{.LocalName}})
	{{- else}}
	err = json.Unmarshal([]byte({{.LocalName}}Str), &{{.LocalName}})
	{{- end}}
{{- if and (.IsBaseType) (not (Contains .GoType ""[]byte""))}}
}
{{- end}}".

(** What the templates in ht read of a Field (types.go:40-82) when it is being made: the name by which the template knows it. *)
Definition get_shape (f : hfield) (n : str) : option (value hfield) :=
  if str_eqb n (T "LocalName") then Some (VStr (hf_local f))
  else if str_eqb n (T "GoType") then Some (VStr (hf_gotype f))
  else if str_eqb n (T "StarExpr") then Some (VBool (hf_star f))
  else if str_eqb n (T "IsBaseType") then Some (VBool (hf_base f))
  else if str_eqb n (T "Repeated") then Some (VBool (hf_rep f))
  else None.
(** ht:361-482, createDecodeConvertFunc: the source text; None: the panic of line 477. *)
Definition convert_func (f : hfield) : option str :=
  if hf_enum f && negb (hf_rep f) then Some (scalar_stmt (Some (PInt 32)) (hf_local f) (hf_local f ++ T "Str"))
  else if negb (hf_base f) || hf_rep f then
    let converted := if existsb (str_eqb (hf_gotype f)) [T "uint32"; T "int32"; T "float32"] then hf_gotype f ++ T "(converted)" else T "converted" in
    let rep := repeated_tmpl (scalar_stmt (scalar_table (hf_gotype f)) (T "converted") (T "v")) converted in
    let t := if negb (hf_rep f) then single_tmpl ++ error_tmpl else if negb (str_eqb (hf_gotype f) (T "string")) then rep ++ error_tmpl else rep in
    apply_template hfield get_shape t f
  else Some (scalar_stmt (scalar_table (hf_gotype f)) (hf_local f) (hf_local f ++ T "Str")).
(** ht:488-512 and 113-120, the source text of the type conversion *)
Fixpoint tconv_text (local : str) (t : tconv) : str :=
  match t with
  | TcVar => local
  | TcCast ty => ty ++ T "(" ++ local ++ T ")"
  | TcAddr => T "&" ++ local
  | TcAddrCast ty => T "&" ++ ty ++ T "(" ++ local ++ T ")"
  | TcWrap addr msg camel x => (if addr then T "&" else []) ++ msg ++ T "{" ++ camel ++ T ": " ++ tconv_text local x ++ T "}"
  end.
(** ht:257-285, PathSections: the source text of a section *)
Definition section_text (s : section) : str :=
  match s with
  | SecLit p => quoted p
  | SecEnum c => T "fmt.Sprintf(" ++ quoted (T "%d") ++ T ", req." ++ c ++ T ")"
  | SecVal c => T "fmt.Sprint(req." ++ c ++ T ")"
  end.

(** ht:290-309 *)
Definition query_logic : str := T "
if {{.LocalName}}StrArr, ok := {{.Location}}Params[""{{.QueryParamName}}""]; ok {
{{.LocalName}}Str := {{.LocalName}}StrArr[0]".
Definition path_logic : str := T "
{{.LocalName}}Str := {{.Location}}Params[""{{.QueryParamName}}""]".
Definition generic_logic : str := T "
{{.ConvertFunc}}{{if .ConvertFuncNeedsErrorCheck}}
if err != nil {
	return nil, errors.Wrap(err, fmt.Sprintf(""Error while extracting {{.LocalName}} from {{.Location}}, {{.Location}}Params: %v"", {{.Location}}Params))
}{{end}}
req.{{.CamelName}} = {{.TypeConversion}}
".
(** ht:320-350 *)
Definition oneof_tmpl : str := T "
{{- with $oneof := . -}}
	// {{.Name}} oneof
	{{.Name}}CountSet := 0
	{{range $option := $oneof.Options}}

		var {{$option.LocalName}}Str string
		{{$option.LocalName}}StrArr, {{$option.LocalName}}OK := {{$oneof.Location}}Params[""{{$option.QueryParamName}}""]
		if {{$option.LocalName}}OK {
			{{$option.LocalName}}Str = {{$option.LocalName}}StrArr[0]
			{{$oneof.Name}}CountSet++
		}
	{{end}}

if {{.Name}}CountSet > 1 {
	return nil, errors.Errorf(""only one of ({{range $option := $oneof.Options}}\""{{$option.QueryParamName}}\"",{{end}}) allowed"")
}

switch {
{{range $option := $oneof.Options}}
case {{$option.LocalName}}OK:
	{{$option.ConvertFunc}}{{if $option.ConvertFuncNeedsErrorCheck}}
	if err != nil {
		return nil, errors.Wrap(err, fmt.Sprintf(""Error while extracting {{.LocalName}} from {{$option.Location}}, {{$oneof.Location}}Params: %v"", {{$oneof.Location}}Params))
	}{{end}}
	req.{{$option.CamelName}} = {{$option.TypeConversion}}
{{end}}
}
{{- end -}}
".

(** The fields of the structs (and PathSections), by the names that the templates use. *)
Definition get_field (f : hfield) (n : str) : option (value obj) :=
  if str_eqb n (T "Name") then Some (VStr (hf_name f))
  else if str_eqb n (T "QueryParamName") then Some (VStr (hf_query f))
  else if str_eqb n (T "CamelName") then Some (VStr (hf_camel f))
  else if str_eqb n (T "LowCamelName") then Some (VStr (hf_low f))
  else if str_eqb n (T "LocalName") then Some (VStr (hf_local f))
  else if str_eqb n (T "Location") then Some (VStr (hf_loc f))
  else if str_eqb n (T "GoType") then Some (VStr (hf_gotype f))
  else if str_eqb n (T "StarExpr") then Some (VBool (hf_star f))
  else if str_eqb n (T "ConvertFunc") then option_map VStr (convert_func f)
  else if str_eqb n (T "ConvertFuncNeedsErrorCheck") then Some (VBool (hf_check f))
  else if str_eqb n (T "TypeConversion") then Some (VStr (tconv_text (hf_local f) (hf_tconv f)))
  else if str_eqb n (T "IsBaseType") then Some (VBool (hf_base f))
  else if str_eqb n (T "IsEnum") then Some (VBool (hf_enum f))
  else if str_eqb n (T "Repeated") then Some (VBool (hf_rep f))
  else if str_eqb n (T "ZeroValue") then Some (VStr (hf_zero f))
  else None.
Definition get_oneof (o : honeof) (n : str) : option (value obj) :=
  if str_eqb n (T "Name") then Some (VStr (ho_name o))
  else if str_eqb n (T "Location") then Some (VStr (ho_loc o))
  else if str_eqb n (T "Options") then Some (VList (map (fun f => VObj (OField f)) (ho_options o)))
  else None.
Definition get_plain (o : obj) (n : str) : option (value obj) :=
  match o with
  | OData d =>
      if str_eqb n (T "ImportPath") then Some (VStr (td_import d))
      else if str_eqb n (T "PBImportPath") then Some (VStr (td_pb_import d))
      else if str_eqb n (T "PackageName") then Some (VStr (td_package d))
      else if str_eqb n (T "Service") then Some (VObj (OService (td_service d)))
      else if str_eqb n (T "HTTPHelper") then Some (VObj (OHelper (td_helper d)))
      else if str_eqb n (T "Config") then Some (VObj (OConfig d))
      else if str_eqb n (T "Version") then Some (VStr (td_version d))
      else if str_eqb n (T "VersionDate") then Some (VStr (td_date d))
      else None
  | OConfig d => if str_eqb n (T "Transport") then Some (VStr (td_transport d)) else None
  | OService s =>
      if str_eqb n (T "Name") then Some (VStr (sv_name s))
      else if str_eqb n (T "Methods") then Some (VList (map (fun m => VObj (OMethod m)) (sv_methods s)))
      else None
  | OMethod m =>
      if str_eqb n (T "Name") then Some (VStr (sm_name m))
      else if str_eqb n (T "RequestType") then Some (VObj (OType (sm_req m)))
      else if str_eqb n (T "ResponseType") then Some (VObj (OType (sm_resp m)))
      else None
  | OType t => if str_eqb n (T "Name") then Some (VStr (ft_name t)) else None
  | OHelper l => if str_eqb n (T "Methods") then Some (VList (map (fun m => VObj (OHMeth m)) l)) else None
  | OHMeth m =>
      if str_eqb n (T "Name") then Some (VStr (hm_name m))
      else if str_eqb n (T "RequestType") then Some (VStr (hm_req m))
      else if str_eqb n (T "ResponseType") then Some (VStr (hm_resp m))
      else if str_eqb n (T "Bindings") then Some (VList (map (fun b => VObj (OBind m b)) (hm_binds m)))
      else None
  | OBind m b =>
      if str_eqb n (T "Label") then Some (VStr (hb_label b))
      else if str_eqb n (T "PathTemplate") then Some (VStr (hb_path b))
      else if str_eqb n (T "BasePath") then Some (VStr (hb_base b))
      else if str_eqb n (T "Verb") then Some (VStr (hb_verb b))
      else if str_eqb n (T "Fields") then Some (VList (map (fun f => VObj (OField f)) (hb_fields b)))
      else if str_eqb n (T "OneofFields") then Some (VList (map (fun o => VObj (OOneof o)) (hb_oneofs b)))
      else if str_eqb n (T "Parent") then Some (VObj (OHMeth m))
      else if str_eqb n (T "PathSections") then Some (VList (map (fun s => VStr (section_text s)) (path_sections b)))
      else None
  | OField f => get_field f n
  | OOneof o => get_oneof o n
  | OHandler svc ms =>
      if str_eqb n (T "ServiceName") then Some (VStr svc)
      else if str_eqb n (T "Methods") then Some (VList (map (fun m => VObj (OMethod m)) ms))
      else None
  end.

Section Render.
  (** go/format.Source: None is an error *)
  Variable format_source : str -> option str.
  (** ht:289-316, Field.GenQueryUnmarshaler *)
  Definition field_unmarshaler (f : hfield) : option str :=
    option_map (format_code format_source)
      (apply_template obj get_plain (if str_eqb (hf_loc f) (T "path") then path_logic ++ generic_logic else query_logic ++ generic_logic ++ T "}") (OField f)).
  (** ht:319-358, OneofField.GenQueryUnmarshaler *)
  Definition oneof_unmarshaler (o : honeof) : option str := option_map (format_code format_source) (apply_template obj get_plain oneof_tmpl (OOneof o)).
  (** With these two methods *)
  Definition get (o : obj) (n : str) : option (value obj) :=
    match o with
    | OField f => if str_eqb n (T "GenQueryUnmarshaler") then option_map VStr (field_unmarshaler f) else get_plain o n
    | OOneof x => if str_eqb n (T "GenQueryUnmarshaler") then option_map VStr (oneof_unmarshaler x) else get_plain o n
    | _ => get_plain o n
    end.
  (** gengokit.go:91-98, ApplyTemplateFromPath *)
  Definition render_asset (name : str) (d : tdata) : option str := match asset_string name with Some t => apply_template obj get t (OData d) | None => None end.
  (** services.go:300-303, applyServiceMethodsTempl *)
  Definition render_methods (svc : str) (ms : list smethod) : option str := apply_template obj get (T service_methods_text) (OHandler svc ms).
  (** gengokit.go:75-88, NewData: NewHelper can panic (None). *)
  Definition new_data (sd : svcdef) (sv : service) (o : opts) (import pb_import version date : str) : option tdata :=
    match new_helper (sd_messages sd) (sv_methods sv) with
    | Ret hs => Some (mkTData import pb_import (sd_pkg sd) sv hs (op_transport o) version date)
    | _ => None
    end.
  (** The templates as Generator.v and Main.v use them: gengokit.NewData, once per run, then ApplyTemplateFromPath.  The import paths, the version and its
      date are the same for all files. *)
  Definition templates (import pb_import version date : str) (sd : svcdef) (o : opts) (x : str) (_ : data) : option str :=
    match sd_service sd with
    | Some sv => match new_data sd sv o import pb_import version date with Some d => render_asset x d | None => None end
    | None => None
    end.
End Render.
