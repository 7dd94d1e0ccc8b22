(** Histories over the scanner: files scanned one after the other, units read and un-read. *)
From Verif Require Import GoStr Scanner.

(** Scanning files one after the other in one process: the package state left behind. *)
Fixpoint scan_history (U : unicode) (g : globals) (files : list str) : option globals :=
  match files with
  | [] => Some g
  | f :: fs => match scan U g f with
               | Some (_, _, g') => scan_history U g' fs
               | None => None
               end
  end.

(** A file that, scanned first, ends outside any header or body and at depth 0. *)
Definition closed_file (U : unicode) (f : str) : Prop :=
  forall us r g, scan U globals0 f = Some (us, r, g) ->
  forall u, hd_error (rev us) = Some u -> su_def u = false /\ su_body u = false /\ su_brace u = 0%Z.

Inductive scan_op := OpRead | OpUnread.

(** One operation; [None] = the process panicked. *)
Definition scan_op_step (s : scanner) (o : scan_op) : option scanner :=
  match o with
  | OpRead => Some (snd (read_unit s))
  | OpUnread => match unread_unit s with
                | UROk s' => Some s'
                | URError => Some s
                | URPanic => None
                end
  end.
Fixpoint scan_ops_run (s : scanner) (os : list scan_op) : option scanner :=
  match os with
  | [] => Some s
  | o :: os' => match scan_op_step s o with Some s' => scan_ops_run s' os' | None => None end
  end.

