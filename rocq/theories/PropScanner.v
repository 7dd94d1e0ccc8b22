(** Property theorems C01-C07: the scanner (svcdef/svcparse/scanner.go). *)
From Verif Require Import GoStr GoStrProofs Scanner ScannerSpec ScanRun ScannerProofs ScannerProofs2 ScannerProofs3.

(** C01: every text is scanned to the end; every unit takes at least one rune. *)
Theorem c01_scan_total : forall U g text, unicode_ok U ->
  exists us r g', scan U g text = Some (us, r, g')
    /\ Forall (fun u => su_val u <> []) us
    /\ length us <= length text.
Proof.
  intros U g text HU.
  destruct (scan_spec U HU g text) as (us & r & g' & ps & tail & E & Ht & _ & Hs).
  destruct (scanned_nonempty _ _ _ _ _ _ Hs) as [H1 H2].
  exists us, r, g'. split; [exact E|]. split; [exact H1|]. rewrite Ht, app_length. lia.
Qed.
Print Assumptions c01_scan_total.

(** C02: units written one after the other are read back, whatever was scanned before. *)
Theorem c02_scan_roundtrip : forall U g us, unicode_ok U -> well_separated U us ->
  exists sus r g', scan U g (concat us) = Some (sus, r, g') /\ map su_val sus = us.
Proof.
  intros U g us HU H. destruct (scan_roundtrip U HU g us H) as (sus & r & g' & E & Ev & _).
  exists sus, r, g'. auto.
Qed.
Print Assumptions c02_scan_roundtrip.

(** C03: the units are the text, cut in consecutive pieces.  A unit's value is its piece, except
    that block comments lose the rune after an inner '*'; what is left over at the end of the file
    is an unterminated unit. *)
Theorem c03_units_are_the_text : forall U g text us r g', unicode_ok U ->
  scan U g text = Some (us, r, g') ->
  exists pieces tail, text = concat pieces ++ tail
    /\ Forall2 unit_text pieces (map su_val us)
    /\ subseq (concat (map su_val us)) text
    /\ (tail <> [] -> starts (fun c => c = c_slash \/ c = c_dquote) tail)
    /\ (forall v rest, tail = v ++ rest -> unit_shape U v -> merges U v rest).
Proof. exact c03_main. Qed.
Print Assumptions c03_units_are_the_text.

Theorem c03_lossless : forall U g text us r g', unicode_ok U ->
  scan U g text = Some (us, r, g') ->
  (forall u b, In u us -> su_val u = T "/*" ++ b ++ T "*/" -> ~ In c_star b) ->
  exists tail, text = concat (map su_val us) ++ tail
    /\ (tail <> [] -> starts (fun c => c = c_slash \/ c = c_dquote) tail).
Proof. exact c03_lossless_main. Qed.
Print Assumptions c03_lossless.

(** The unrestricted claim is false: "/* a*b */" is reported as "/* a* */". *)
Theorem c03_lossless_refuted : exists text us r g', scan latin1 globals0 text = Some (us, r, g')
  /\ rd_rest r = [] /\ concat (map su_val us) <> text.
Proof.
  exists (T "/* a*b */"). vm_compute. do 3 eexists. split; [reflexivity|]. split; [reflexivity|]. discriminate.
Qed.
(** ... and "/***/" does not end a comment, so that everything after it is lost. *)
Theorem c03_star_star_refuted : exists us r g',
  scan latin1 globals0 (T "/***/ service S { }") = Some (us, r, g') /\ us = [].
Proof. vm_compute. do 3 eexists. split; reflexivity. Qed.

(** C04: line numbers. *)
Theorem c04_line_numbers : forall U g text us r g', unicode_ok U ->
  scan U g text = Some (us, r, g') ->
  exists pieces tail, text = concat pieces ++ tail /\ Forall2 unit_text pieces (map su_val us)
    /\ forall i u, nth_error us i = Some u ->
         su_line u = (1 + newlines (concat (firstn (S i) pieces)))%Z.
Proof. exact c04_main. Qed.
Print Assumptions c04_line_numbers.

(** C05: brace depth and service-region flags. *)
Theorem c05_region_flags : forall U g text us r g', unicode_ok U ->
  scan U g text = Some (us, r, g') ->
  exists pieces tail, text = concat pieces ++ tail /\ Forall2 unit_text pieces (map su_val us)
    /\ forall i u, nth_error us i = Some u ->
         su_brace u = depth_at (g_brace g) (map su_val us) i
         /\ (su_def u = true <-> in_header_at (g_def g) (map su_val us) tail i)
         /\ (su_body u = true <-> in_body_at (g_def g) (g_body g) (g_brace g) (map su_val us) tail i).
Proof. exact c05_main. Qed.
Print Assumptions c05_region_flags.

(** C06: independence of history. *)
Theorem c06_history_independent : forall U earlier g text, unicode_ok U ->
  Forall (closed_file U) earlier -> scan_history U globals0 earlier = Some g ->
  scan U g text = scan U globals0 text.
Proof.
  intros U earlier g text HU Hc H. rewrite (scan_history_closed U earlier HU Hc) in H.
  injection H as <-. reflexivity.
Qed.
Print Assumptions c06_history_independent.

(** False in general: an earlier file with an unclosed brace shifts the depth of a later one. *)
Theorem c06_history_refuted : exists earlier g text,
  scan_history latin1 globals0 [earlier] = Some g
  /\ scan latin1 g text <> scan latin1 globals0 text.
Proof.
  exists (T "message M {"). vm_compute. eexists. exists (T "a"). split; [reflexivity|]. vm_compute. discriminate.
Qed.

(** C07: un-reading. *)
Theorem c07_unread_restores : forall us os s v s', scan_ops_run (new_scanner us) os = Some s ->
  1 <= sc_pos s -> read_unit s = (Some v, s') -> unread_unit s' = UROk s.
Proof. exact c07_unread. Qed.
Print Assumptions c07_unread_restores.

Theorem c07_unread_to_restores : forall us os1 os2 s s', scan_ops_run (new_scanner us) os1 = Some s ->
  scan_ops_run s os2 = Some s' -> 1 <= sc_pos s -> sc_pos s <= sc_pos s' ->
  unread_to_position s' (sc_pos s) = Ret (s, false).
Proof. exact c07_unread_to. Qed.
Print Assumptions c07_unread_to_restores.

Theorem c07_unread_at_start : forall s, sc_pos s = 0 -> unread_unit s = URError.
Proof. intros s H. unfold unread_unit. rewrite H. reflexivity. Qed.

(** Un-reading the very first unit panics. *)
Theorem c07_unread_first_refuted : exists us v s', read_unit (new_scanner us) = (Some v, s')
  /\ unread_unit s' = URPanic.
Proof. exists [mkUnit false false 0 1 (T "x")]. vm_compute. do 2 eexists. split; reflexivity. Qed.

(** ** The hypotheses are met *)
Example latin1_is_ok : unicode_ok latin1.
Proof. exact latin1_ok. Qed.

Definition sample_units : list str :=
  [T "service"; T " "; T "S"; [c_nl]; T "{"; T "// hi" ++ [c_nl]; T "rpc"; T "("; T "/* x */"; T "Empty"; T ")";
   [c_dquote] ++ T "a\b" ++ [c_dquote]; T "}"; T "/"; T ";"].

Ltac all_true := unfold T; cbn [map list_ascii_of_string]; repeat (apply Forall_cons; [vm_compute; auto|]); apply Forall_nil.
Ltac solve_shape :=
  first
  [ (refine (us_line _ (T " hi") _); cbn; intuition discriminate)
  | (refine (us_block _ (T " x ") _); cbn; intuition discriminate)
  | (refine (us_string _ (T "a\b") _); apply sb_plain; [discriminate|discriminate|]; apply sb_escape; constructor)
  | (apply us_space; [discriminate|all_true])
  | (apply us_ident; [discriminate|all_true])
  | (apply us_symbol; [discriminate|reflexivity|intros [H|[H|H]]; vm_compute in H; discriminate]) ].
Ltac solve_sep := 
    intros [[H1 H2]|[[H1 H2]|[H1 [H2|H2]]]];
    first [discriminate
          |vm_compute in H1; discriminate
          |vm_compute in H2; discriminate
          |destruct H1 as [H1|[H1|H1]]; vm_compute in H1; discriminate
          |destruct H2 as [H2|[H2|H2]]; vm_compute in H2; discriminate
          |destruct H2 as [H2|H2]; vm_compute in H2; discriminate].
Ltac solve_ws := first [apply ws_nil | apply ws_cons; [solve_shape|solve_sep|solve_ws]].

Example sample_well_separated : well_separated latin1 sample_units.
Proof. unfold sample_units. solve_ws. Qed.

Example sample_flags : exists us r g', scan latin1 globals0 (concat sample_units) = Some (us, r, g')
  /\ map su_body us = [false; false; false; false; true; true; true; true; true; true; true; true; false; false; false]
  /\ map su_def us = [true; true; true; true; false; false; false; false; false; false; false; false; false; false; false]
  /\ map su_line us = [1; 1; 1; 2; 2; 3; 3; 3; 3; 3; 3; 3; 3; 3; 3]%Z.
Proof. vm_compute. do 3 eexists. repeat split. Qed.

Example closed_sample : Forall (closed_file latin1) [concat sample_units; T "message M { string a = 1; }"].
Proof.
  apply Forall_cons; [|apply Forall_cons; [|apply Forall_nil]]; intros us r g H; vm_compute in H; injection H as <- <- <-; intros u E;
    injection E as <-; cbn; auto.
Qed.
