(** Model of pkg/strs.go.  The Go functions walk over bytes and only inspect ASCII bytes, copying all
    others; the model walks over runes, which gives the same text (see GoStr.v). *)
From Verif Require Import GoStr.

(** pkg/strs.go:46-66: the byte after the current one is an ASCII lower-case letter
    ([i+1 < len(s) && isASCIILower(s[i+1])]). *)
Definition next_lower (s : str) : bool := match s with c :: _ => is_lower c | [] => false end.

(** pkg/strs.go:18-55, GoCamelCase.  [prev] is s[i-1] (None for i = 0); [run] is true while the inner
    loop at lines 49-51 is copying lower-case letters. *)
Fixpoint camel_loop (prev : option N) (run : bool) (s : str) : str :=
  match s with
  | [] => []
  | c :: s' =>
      if run && is_lower c then c :: camel_loop (Some c) true s'                          (* 49-51 *)
      else if N.eqb c c_dot && next_lower s' then camel_loop (Some c) false s'            (* 27-28 *)
      else if N.eqb c c_dot then c_underscore :: camel_loop (Some c) false s'             (* 29-30 *)
      else if N.eqb c c_underscore
              && match prev with None => true | Some p => N.eqb p c_dot end               (* 31-34 *)
      then 88%N (* 'X' *) :: camel_loop (Some c) false s'
      else if N.eqb c c_underscore && next_lower s' then camel_loop (Some c) false s'     (* 35-36 *)
      else if is_digit c then c :: camel_loop (Some c) false s'                           (* 37-38 *)
      else upper1 c :: camel_loop (Some c) true s'                                        (* 39-48 *)
  end.
Definition go_camel_case (s : str) : str := camel_loop None false s.

(** go/token: the 25 keywords of Go ([token.Lookup(s).IsKeyword()]). *)
Definition go_keywords : list str :=
  [T "break"; T "case"; T "chan"; T "const"; T "continue"; T "default"; T "defer"; T "else";
   T "fallthrough"; T "for"; T "func"; T "go"; T "goto"; T "if"; T "import"; T "interface"; T "map";
   T "package"; T "range"; T "return"; T "select"; T "struct"; T "switch"; T "type"; T "var"].
Definition is_keyword (s : str) : bool := existsb (str_eqb s) go_keywords.

(** utf8.RuneError, what DecodeRuneInString returns for the empty string. *)
Definition rune_error : N := 65533.

(** pkg/strs.go:58-76, GoSanitized.  Invalid UTF-8 (which Go would decode to RuneError, hence map to
    an underscore) is not represented. *)
Definition go_sanitized (U : unicode) (s : str) : str :=
  let s := map (fun r => if u_letter U r || u_digit U r then r else c_underscore) s in
  let r := match s with c :: _ => c | [] => rune_error end in
  if is_keyword s || negb (u_letter U r) then c_underscore :: s else s.

(** pkg/strs.go:80-94, JSONCamelCase.  Line 91 tests the (possibly already upper-cased) [c]. *)
Fixpoint json_camel_loop (was : bool) (s : str) : str :=
  match s with
  | [] => []
  | c :: s' =>
      if N.eqb c c_underscore then json_camel_loop true s'
      else (if was && is_lower c then (c - 32)%N else c) :: json_camel_loop false s'
  end.
Definition json_camel_case (s : str) : str := json_camel_loop false s.

(** pkg/strs.go:98-109, JSONSnakeCase. *)
Definition json_snake_case (s : str) : str :=
  flat_map (fun c => if is_upper c then [c_underscore; (c + 32)%N] else [c]) s.

(** pkg/strs.go:113-129, MapEntryName, for ASCII names ([byte(unicode.ToUpper(c))] truncates others). *)
Fixpoint map_entry_loop (upper_next : bool) (s : str) : str :=
  match s with
  | [] => []
  | c :: s' =>
      if N.eqb c c_underscore then map_entry_loop true s'
      else if upper_next then upper1 c :: map_entry_loop false s'
      else c :: map_entry_loop false s'
  end.
Definition map_entry_name (s : str) : str := map_entry_loop true s ++ T "Entry".

(** pkg/strs.go:133-149, EnumValueName, for ASCII names. *)
Fixpoint enum_value_loop (upper_next : bool) (s : str) : str :=
  match s with
  | [] => []
  | c :: s' =>
      if N.eqb c c_underscore then enum_value_loop true s'
      else if upper_next then upper1 c :: enum_value_loop false s'
      else lower1 c :: enum_value_loop false s'
  end.
Definition enum_value_name (s : str) : str := enum_value_loop true s.

(** pkg/strs.go:154-175, TrimEnumPrefix, for ASCII names: the loop at 156-165, returning the rest of
    both strings, or None at line 162. *)
Fixpoint trim_enum_loop (s prefix : str) : option (str * str) :=
  match s with
  | [] => Some ([], prefix)
  | c :: s' =>
      match prefix with
      | [] => Some (s, [])
      | p :: prefix' =>
          if N.eqb c c_underscore then trim_enum_loop s' prefix
          else if negb (N.eqb (lower1 c) p) then None
          else trim_enum_loop s' prefix'
      end
  end.
Definition trim_enum_prefix (s prefix : str) : str :=
  match trim_enum_loop s prefix with
  | None => s
  | Some (_, _ :: _) => s
  | Some (s1, []) => match trim_left1 c_underscore s1 with [] => s | r => r end
  end.
