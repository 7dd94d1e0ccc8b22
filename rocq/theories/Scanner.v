(** Model of svcdef/svcparse/scanner.go. *)
From Verif Require Import GoStr.

(** scanner.go:13-18, type RuneReader.  [Contents[:RunePos]] is kept reversed in [rd_prev] and
    [Contents[RunePos:]] in [rd_rest]; [LineNo] is [rd_line]. *)
Record reader := mkReader { rd_prev : str; rd_rest : str; rd_line : Z }.

(** The line counter update shared by ReadRune/UnreadRune (scanner.go:26-28 and 41-44). *)
Definition line_after (c : N) (line : Z) : Z := if N.eqb c c_nl then (line + 1)%Z else line.
Definition line_before (c : N) (line : Z) : Z := if N.eqb c c_nl then (line - 1)%Z else line.

(** scanner.go:20-34, ReadRune: [None] is io.EOF. *)
Definition read_rune (r : reader) : option N * reader :=
  match rd_rest r with
  | [] => (None, r)
  | c :: rest => (Some c, mkReader (c :: rd_prev r) rest (line_after c (rd_line r)))
  end.

(** scanner.go:36-46, UnreadRune; the error at position 0 is ignored by every caller and leaves
    the reader unchanged. *)
Definition unread_rune (r : reader) : reader :=
  match rd_prev r with
  | [] => r
  | c :: prev => mkReader prev (c :: rd_rest r) (line_before c (rd_line r))
  end.

(** scanner.go:48-58, NewRuneReader, on the decoded contents (bytes.Runes is trusted). *)
Definition new_reader (contents : str) : reader := mkReader [] contents 1.

(** scanner.go:60-71, isIdent. *)
Definition is_ident (U : unicode) (c : N) : bool :=
  u_letter U c || u_digit U c || N.eqb c c_underscore.

(** scanner.go:73-79, type ScanUnit. *)
Record scan_unit := mkUnit {
  su_def : bool;    (* InRpcDefinition *)
  su_body : bool;   (* InRpcBody *)
  su_brace : Z;     (* BraceLevel *)
  su_line : Z;      (* LineNo *)
  su_val : str }.   (* Value *)

(** scanner.go:88-92, the package-level variables. *)
Record globals := mkGlobals { g_body : bool; g_def : bool; g_brace : Z }.
Definition globals0 : globals := mkGlobals false false 0.

(** scanner.go:104-111, setReturn. *)
Definition set_return (g : globals) (r : reader) (buf : str) : scan_unit :=
  mkUnit (g_def g) (g_body g) (g_brace g) (rd_line r) buf.

(** The inner loops of BuildScanUnit.  Each call to ReadRune takes one rune off [rest] (and, as
    in [read_rune], pushes it on [prev] and updates [line]), so the loops are structurally
    recursive on the unread runes.  Result: reader, buffer, and whether EOF was hit. *)

(** scanner.go:130-139: after "//" was read. *)
Fixpoint line_comment_loop (prev rest : str) (line : Z) (buf : str) : reader * str * bool :=
  match rest with
  | [] => (mkReader prev [] line, buf, true)
  | c :: rest' =>
      if N.eqb c c_nl then (mkReader (c :: prev) rest' (line_after c line), buf ++ [c], false)
      else line_comment_loop (c :: prev) rest' (line_after c line) (buf ++ [c])
  end.

(** scanner.go:143-160: after "/*" was read.  The rune read after a '*' is appended only if it
    is '/'; otherwise it is consumed and dropped (line 149-155). *)
Fixpoint block_comment_loop (prev rest : str) (line : Z) (buf : str) : reader * str * bool :=
  match rest with
  | [] => (mkReader prev [] line, buf, true)
  | c :: rest' =>
      if N.eqb c c_star then
        match rest' with
        | [] => (mkReader (c :: prev) [] (line_after c line), buf ++ [c], true)
        | d :: rest'' =>
            let prev'' := d :: c :: prev in
            let line'' := line_after d (line_after c line) in
            if N.eqb d c_slash then (mkReader prev'' rest'' line'', buf ++ [c] ++ [d], false)
            else block_comment_loop prev'' rest'' line'' (buf ++ [c])
        end
      else block_comment_loop (c :: prev) rest' (line_after c line) (buf ++ [c])
  end.

(** scanner.go:168-188: after the opening quote was read. *)
Fixpoint string_loop (prev rest : str) (line : Z) (buf : str) : reader * str * bool :=
  match rest with
  | [] => (mkReader prev [] line, buf, true)
  | c :: rest' =>
      if N.eqb c c_backslash then
        match rest' with
        | [] => (mkReader (c :: prev) [] (line_after c line), buf ++ [c], true)
        | d :: rest'' =>
            string_loop (d :: c :: prev) rest'' (line_after d (line_after c line)) (buf ++ [c] ++ [d])
        end
      else if N.eqb c c_dquote then
        (mkReader (c :: prev) rest' (line_after c line), buf ++ [c], false)
      else string_loop (c :: prev) rest' (line_after c line) (buf ++ [c])
  end.

(** scanner.go:191-206 and 209-224: group consecutive runes satisfying [cls].  The flag tells
    whether the loop ended at EOF (true) or by un-reading a rune (false). *)
Fixpoint run_loop (cls : N -> bool) (prev rest : str) (line : Z) (buf : str) : reader * str * bool :=
  match rest with
  | [] => (mkReader prev [] line, buf, true)
  | c :: rest' =>
      if cls c then run_loop cls (c :: prev) rest' (line_after c line) (buf ++ [c])
      else (unread_rune (mkReader (c :: prev) rest' (line_after c line)), buf, false)
  end.

(** scanner.go:94-244, BuildScanUnit.  Result: unit, error flag (true = io.EOF), reader, globals. *)
Definition build_scan_unit (U : unicode) (r0 : reader) (g : globals)
  : scan_unit * bool * reader * globals :=
  match read_rune r0 with
  | (None, r) => (set_return g r [], true, r, g)                         (* 115-118 *)
  | (Some ch, r) =>
      let buf := [ch] in                                                 (* 119 *)
      if N.eqb ch c_slash then                                           (* 122 *)
        match read_rune r with
        | (None, r1) => (set_return g r1 buf, true, r1, g)               (* 125-126 *)
        | (Some c2, r1) =>
            if N.eqb c2 c_slash then                                     (* 127-139 *)
              let '(r2, b2, eof) :=
                line_comment_loop (rd_prev r1) (rd_rest r1) (rd_line r1) (buf ++ [c2]) in
              (set_return g r2 b2, eof, r2, g)
            else if N.eqb c2 c_star then                                 (* 140-160 *)
              let '(r2, b2, eof) :=
                block_comment_loop (rd_prev r1) (rd_rest r1) (rd_line r1) (buf ++ [c2]) in
              (set_return g r2 b2, eof, r2, g)
            else                                                         (* 161-165 *)
              let r2 := unread_rune r1 in (set_return g r2 buf, false, r2, g)
        end
      else if N.eqb ch c_dquote then                                     (* 166-188 *)
        let '(r2, b2, eof) := string_loop (rd_prev r) (rd_rest r) (rd_line r) buf in
        (set_return g r2 b2, eof, r2, g)
      else if u_space U ch then                                          (* 189-206 *)
        let '(r2, b2, _) := run_loop (u_space U) (rd_prev r) (rd_rest r) (rd_line r) buf in
        (set_return g r2 b2, false, r2, g)
      else if is_ident U ch then                                         (* 207-224 *)
        let '(r2, b2, eof) := run_loop (is_ident U) (rd_prev r) (rd_rest r) (rd_line r) buf in
        let g2 := if eof then g                                          (* 211-215: no check at EOF *)
                  else if str_eqb b2 (T "service")                       (* 218-220 *)
                  then mkGlobals (g_body g) true (g_brace g) else g in
        (set_return g2 r2 b2, false, r2, g2)
      else if N.eqb ch c_lbrace then                                     (* 225-230 *)
        let g1 := mkGlobals (g_body g) (g_def g) (g_brace g + 1) in
        let g2 := if g_def g1 then mkGlobals true false (g_brace g1) else g1 in
        (set_return g2 r buf, false, r, g2)
      else if N.eqb ch c_rbrace then                                     (* 231-235 *)
        let g1 := mkGlobals (g_body g) (g_def g) (g_brace g - 1) in
        let g2 := if g_body g1 && Z.eqb (g_brace g1) 0
                  then mkGlobals false (g_def g1) (g_brace g1) else g1 in
        (set_return g2 r buf, false, r, g2)
      else (set_return g r buf, false, r, g)                             (* 243 *)
  end.

(** scanner.go:268-275, the loop of NewSvcScanner, on fuel; [None] = out of fuel.  The unit
    returned together with an error is dropped (line 272-274). *)
Fixpoint scan_loop (U : unicode) (fuel : nat) (r : reader) (g : globals)
  : option (list scan_unit * reader * globals) :=
  match fuel with
  | O => None
  | S fuel' =>
      let '(u, err, r', g') := build_scan_unit U r g in
      if err then Some ([], r', g')
      else match scan_loop U fuel' r' g' with
           | Some (us, r'', g'') => Some (u :: us, r'', g'')
           | None => None
           end
  end.

(** scanner.go:265-284: the units of a file and the package state left behind. *)
Definition scan (U : unicode) (g : globals) (contents : str)
  : option (list scan_unit * reader * globals) :=
  scan_loop U (S (length contents)) (new_reader contents) g.

(** scanner.go:255-263, type SvcScanner (the fresh RuneReader in field R is never used). *)
Record scanner := mkScanner {
  sc_def : bool;          (* InDefinition *)
  sc_body : bool;         (* InBody *)
  sc_brace : Z;           (* BraceLevel *)
  sc_buf : list scan_unit;(* Buf *)
  sc_pos : nat;           (* UnitPos *)
  sc_line : Z }.          (* lineNo *)

(** scanner.go:276-283 *)
Definition new_scanner (buf : list scan_unit) : scanner := mkScanner false false 0 buf 0 0.

(** scanner.go:310-329, ReadUnit; [None] is io.EOF. *)
Definition read_unit (s : scanner) : option str * scanner :=
  match nth_error (sc_buf s) (sc_pos s) with
  | Some u => (Some (su_val u),
               mkScanner (su_def u) (su_body u) (su_brace u) (sc_buf s) (S (sc_pos s)) (su_line u))
  | None => (None, s)
  end.

(** scanner.go:331-356, UnreadUnit. *)
Inductive unread_result :=
| UROk (s : scanner)
| URError              (* the error of line 333; the scanner is unchanged *)
| URPanic.             (* index out of range at line 349 *)

Definition unread_unit (s : scanner) : unread_result :=
  match sc_pos s with
  | O => URError                                       (* 332-334 *)
  | S O => URPanic                                     (* 337-349: UnitPos becomes 0, then -1; Buf[-2] *)
  | S (S p) =>                                         (* 344-353 *)
      match nth_error (sc_buf s) p with
      | Some u => UROk (mkScanner (su_def u) (su_body u) (su_brace u) (sc_buf s) (S p) (su_line u))
      | None => URPanic
      end
  end.

(** scanner.go:357-369, UnReadToPosition; the position decreases at every turn, so [fuel] =
    current position + 1 suffices.  The error (position 0 reached) is returned as the scanner at
    that point together with [true]. *)
Fixpoint unread_to_loop (fuel : nat) (s : scanner) (position : nat) : outcome (scanner * bool) :=
  match fuel with
  | O => OutOfFuel
  | S fuel' =>
      if Nat.eqb (sc_pos s) position then Ret (s, false)
      else match unread_unit s with
           | UROk s' => unread_to_loop fuel' s' position
           | URError => Ret (s, true)
           | URPanic => Panic
           end
  end.
Definition unread_to_position (s : scanner) (position : nat) : outcome (scanner * bool) :=
  unread_to_loop (S (sc_pos s)) s position.

(** scanner.go:294-303, the search loop of FastForward, on fuel; result:
    Ret (s, true) = io.EOF, Ret (s, false) = found.  Line 300 moves the position back without
    touching the flags. *)
Fixpoint fast_forward_loop (fuel : nat) (s : scanner) : outcome (scanner * bool) :=
  match fuel with
  | O => OutOfFuel
  | S fuel' =>
      match read_unit s with
      | (None, s') => Ret (s', true)
      | (Some v, s') =>
          if str_eqb v (T "service")
          then Ret (mkScanner (sc_def s') (sc_body s') (sc_brace s') (sc_buf s')
                               (sc_pos s' - 1) (sc_line s'), false)
          else fast_forward_loop fuel' s'
      end
  end.

(** scanner.go:289-305, FastForward. *)
Definition fast_forward (s : scanner) : outcome (scanner * bool) :=
  if sc_body s || sc_def s then Ret (s, false)
  else fast_forward_loop (S (length (sc_buf s) - sc_pos s)) s.
