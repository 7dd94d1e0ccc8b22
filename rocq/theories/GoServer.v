(** A fragment of Go for the generated server: its settings and its goroutines.  Programs, their tokens (GoLex.v), and what they do (The Go Programming Language Specification, "Go statements",
    "Send statements", "If statements"; package flag).  A specification: nothing here is baron's code. *)
From Coq Require Import String.
From Verif Require Import GoStr Strs GoLex GoDecls.

(** ** Settings: flags, the environment and a struct variable config *)
Inductive gvalue := GStr (s : str) | GBool (b : bool).
Definition store := str -> gvalue.                     (* the fields of config *)
Definition set (c : store) (f : str) (v : gvalue) : store := fun g => if str_eqb f g then v else c g.
Inductive rhs := Copy | Port | IsTrue.                 (* x;  fmt.Sprintf(":%s", x);  "true" == strings.ToLower(x) *)
Inductive setting :=
| StringFlag (f name dflt usage : str)                 (* flag.StringVar(&config.f, "name", "dflt", "usage") *)
| BoolFlag (f name : str) (dflt : bool) (usage : str)  (* flag.BoolVar(&config.f, "name", dflt, "usage") *)
| IfEnv (x var f : str) (r : rhs).                     (* if x := os.Getenv("var"); x != "" { config.f = r } *)
Definition w (s : string) : token := Word (T s).
Definition o (s : string) : token := Op (T s).
Definition call_of (p f : string) (args : list token) : list token := [w p; o "."; w f; o "("] ++ args ++ [o ")"].
Definition rhs_toks (x : str) (r : rhs) : list token :=
  match r with
  | Copy => [Word x]
  | Port => call_of "fmt" "Sprintf" [Str (T ":%s"); o ","; Word x]
  | IsTrue => [Str (T "true"); o "=="] ++ call_of "strings" "ToLower" [Word x]
  end.
Definition setting_toks (s : setting) : list token :=
  match s with
  | StringFlag f n d u => call_of "flag" "StringVar" [o "&"; w "config"; o "."; Word f; o ","; Str n; o ","; Str d; o ","; Str u]
  | BoolFlag f n d u => call_of "flag" "BoolVar" [o "&"; w "config"; o "."; Word f; o ","; Str n; o ","; w (if d then "true" else "false"); o ","; Str u]
  | IfEnv x v f r => [w "if"; Word x; o ":="] ++ call_of "os" "Getenv" [Str v] ++ [Semi; Word x; o "!="; Str []; o "{"; w "config"; o "."; Word f; o "="] ++ rhs_toks x r ++ [Semi; o "}"]
  end ++ [Semi].
(** What it does: [env] is os.Getenv. *)
Definition rhs_value (v : str) (r : rhs) : gvalue := match r with Copy => GStr v | Port => GStr (T ":" ++ v) | IsTrue => GBool (str_eqb (T "true") (to_lower v)) end.
Definition exec_setting (env : str -> str) (c : store) (s : setting) : store :=
  match s with
  | StringFlag f _ d _ => set c f (GStr d)
  | BoolFlag f _ d _ => set c f (GBool d)
  | IfEnv _ v f r => match env v with [] => c | x => set c f (rhs_value x r) end
  end.
Definition exec_settings (env : str -> str) (c : store) (l : list setting) : store := fold_left (exec_setting env) l c.
(** The flags that are defined: name, field, whether boolean *)
Definition flags_of (l : list setting) : list (str * (str * bool)) :=
  flat_map (fun s => match s with StringFlag f n _ _ => [(n, (f, false))] | BoolFlag f n _ _ => [(n, (f, true))] | IfEnv _ _ _ _ => [] end) l.
Fixpoint flag_named (n : str) (l : list (str * (str * bool))) : option (str * bool) := match l with [] => None | (m, x) :: l' => if str_eqb n m then Some x else flag_named n l' end.
(** strconv.ParseBool *)
Definition bool_value (s : str) : option bool :=
  if existsb (str_eqb s) [T "1"; T "t"; T "T"; T "TRUE"; T "true"; T "True"] then Some true
  else if existsb (str_eqb s) [T "0"; T "f"; T "F"; T "FALSE"; T "false"; T "False"] then Some false else None.
(** name, or name=value *)
Fixpoint at_equals (s : str) : str * option str := match s with [] => ([], None) | c :: s' => if N.eqb c 61 then ([], Some s') else let '(n, v) := at_equals s' in (c :: n, v) end.
(** flag.Parse; None: the program prints its usage and exits. *)
Fixpoint parse_flags (fs : list (str * (str * bool))) (c : store) (args : list str) {struct args} : option store :=
  match args with
  | [] => Some c
  | s :: rest =>
      match s with
      | 45%N :: b :: s' =>
          match (if N.eqb b 45 then s' else b :: s') with
          | [] => Some c                                               (* --: the end of the flags *)
          | x :: t =>
              if N.eqb x 45 || N.eqb x 61 then None else
              let '(n, v) := at_equals t in
              match flag_named (x :: n) fs, v, rest with
              | None, _, _ => None
              | Some (f, true), _, _ => match bool_value (match v with Some y => y | None => T "true" end) with Some b => parse_flags fs (set c f (GBool b)) rest | None => None end
              | Some (f, false), Some y, _ => parse_flags fs (set c f (GStr y)) rest
              | Some (f, false), None, y :: rest' => parse_flags fs (set c f (GStr y)) rest'
              | Some (f, false), None, [] => None
              end
          end
      | _ => Some c                                                    (* the first argument that is no flag *)
      end
  end.

(** ** Goroutines that report to a channel errc, and a main goroutine that starts them and waits for one report *)
Inductive gstmt :=
| Do (l : list token)      (* a simple statement *)
| Try (l : list token)     (* a statement that sets err;  if err != nil { errc <- err; return } *)
| Report (l : list token). (* errc <- l *)
Definition gstmt_toks (s : gstmt) : list token :=
  match s with
  | Do l => l ++ [Semi]
  | Try l => l ++ [Semi; w "if"; w "err"; o "!="; w "nil"; o "{"; w "errc"; o "<-"; w "err"; Semi; w "return"; Semi; o "}"; Semi]
  | Report l => [w "errc"; o "<-"] ++ l ++ [Semi]
  end.
(** Statements that neither send to errc, nor end or start a goroutine *)
Definition minds_its_business (l : list token) : Prop := forall t, In t l -> ~ In t [w "errc"; w "return"; w "go"; w "goto"; w "panic"; Bad].
Definition stmt_fine (s : gstmt) : Prop := match s with Do l => minds_its_business l | Try l => minds_its_business l /\ In (w "err") l | Report l => minds_its_business l end.
(** When a goroutine is started: always, if a field of cfg is true, or if it is not empty *)
Inductive gcond := Always | IfTrue (f : str) | IfSet (f : str).
Definition wanted (c : store) (g : gcond) : bool :=
  match g with Always => true | IfTrue f => match c f with GBool b => b | GStr _ => false end | IfSet f => match c f with GStr [] => false | GStr _ => true | GBool _ => false end end.
Section Threads.
  Variable thread : Type.
  Variable thread_eq : forall a b : thread, {a = b} + {a <> b}.
  (** A go statement: of a function literal, or of a function declared elsewhere ([st_fun]) *)
  Record start := mkStart { st_thread : thread; st_cond : gcond; st_fun : option str; st_body : list gstmt }.
  (** if COND { go func() { BODY }() } or go f(errc) *)
  Definition start_toks (s : start) : list token :=
    let body := match st_fun s with
                | None => [w "go"; w "func"; o "("; o ")"; o "{"] ++ flat_map gstmt_toks (st_body s) ++ [o "}"; o "("; o ")"; Semi]
                | Some f => [w "go"; Word f; o "("; w "errc"; o ")"; Semi]
                end in
    match st_cond s with
    | Always => body
    | IfTrue f => [w "if"; w "cfg"; o "."; Word f; o "{"] ++ body ++ [o "}"; Semi]
    | IfSet f => [w "if"; w "cfg"; o "."; Word f; o "!="; Str []; o "{"] ++ body ++ [o "}"; Semi]
    end.
  (** The function declared elsewhere *)
  Definition fun_decl (f : str) (body : list gstmt) : list token := [w "func"; Word f; o "("; w "errc"; w "chan"; o "<-"; w "error"; o ")"; o "{"] ++ flat_map gstmt_toks body ++ [o "}"].
  (** A goroutine: what is left of its body, from the next statement that can report; waiting to send, with what is left after that; or over *)
  Inductive where_ := At (l : list gstmt) | Sending (v : str) (l : list gstmt) | Over.
  Fixpoint next (l : list gstmt) : where_ := match l with [] => Over | Do _ :: l' => next l' | _ => At l end.
  Record gstate := mkG { g_todo : list start; g_threads : thread -> option where_; g_ret : option str }.
  Definition put (s : gstate) (t : thread) (x : where_) : gstate := mkG (g_todo s) (fun u => if thread_eq u t then Some x else g_threads s u) (g_ret s).
  Inductive event :=
  | Starts (t : thread)                 (* a go statement *)
  | Fails (t : thread) (v : str)        (* a call returned v, which is about to be sent *)
  | Passes (t : thread)                 (* a call succeeded, and there is another one to come *)
  | Ends (t : thread)                   (* the last call succeeded: the goroutine is over *)
  | Receives (t : thread) (v : str).    (* the main goroutine receives v, and returns *)
  Inductive gstep : gstate -> event -> gstate -> Prop :=
  | GStart : forall s x l, g_todo s = x :: l -> gstep s (Starts (st_thread x)) (mkG l (fun u => if thread_eq u (st_thread x) then Some (next (st_body x)) else g_threads s u) (g_ret s))
  | GFail : forall s t l r v, g_threads s t = Some (At (Try l :: r)) -> gstep s (Fails t v) (put s t (Sending v []))
  | GReport : forall s t l r v, g_threads s t = Some (At (Report l :: r)) -> gstep s (Fails t v) (put s t (Sending v r))
  | GPass : forall s t l r m, g_threads s t = Some (At (Try l :: r)) -> next r = At m -> gstep s (Passes t) (put s t (At m))
  | GEnd : forall s t l r, g_threads s t = Some (At (Try l :: r)) -> next r = Over -> gstep s (Ends t) (put s t Over)
  | GReceive : forall s t v r, g_todo s = [] -> g_ret s = None -> g_threads s t = Some (Sending v r) ->
      gstep s (Receives t v) (mkG [] (fun u => if thread_eq u t then Some (next r) else g_threads s u) (Some v)).
  (** The main goroutine with these start statements, and settings c *)
  Definition g_initial (c : store) (l : list start) : gstate := mkG (filter (fun x => wanted c (st_cond x)) l) (fun _ => None) None.
  Inductive grun (s : gstate) : list event -> gstate -> Prop :=
  | GNil : grun s [] s
  | GSnoc : forall tr s1 e s2, grun s tr s1 -> gstep s1 e s2 -> grun s (tr ++ [e]) s2.
End Threads.
