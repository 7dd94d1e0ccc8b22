(** Property theorems C74: the command line of baron. *)
From Verif Require Import GoStr GoStrProofs Server Cmdline CmdlineSpec CmdlineProofs.

(** ** C74: what a command line means *)
(** The line is read exactly when it is made of flags and arguments (and perhaps -- and more arguments); of each flag the last word counts, the
    arguments keep their order, and a flag may stand anywhere among them. *)
Theorem c74_meaning : forall args o ps, parse_args opts0 args = Some (o, ps) <-> means args o ps.
Proof. exact parse_iff. Qed.
Print Assumptions c74_meaning.

(** There is one meaning at most. *)
Theorem c74_one_meaning : forall args o ps o' ps', means args o ps -> means args o' ps' -> o = o' /\ ps = ps'.
Proof. intros args o ps o' ps' H K. apply parse_iff in H, K. rewrite H in K. injection K as <- <-. split; reflexivity. Qed.
Print Assumptions c74_one_meaning.

(** And what baron does: refuse; help before version before start before complaining of no files; else generate from the arguments in order. *)
Theorem c74_action : forall args a, decide args = a <-> does args a.
Proof.
  intros args a. split.
  - intros <-. unfold decide. destruct (parse_args opts0 args) as [[o ps]|] eqn:E.
    + apply parse_iff in E. destruct (op_help o) eqn:E1; [exact (DoHelp args o ps E E1)|]. destruct (op_version o) eqn:E2; [exact (DoVersion args o ps E E1 E2)|].
      destruct (op_start o) eqn:E3; [|destruct ps as [|p ps]; [exact (DoMissing args o E E1 E2 E3)|exact (DoGenerate args o p ps E E1 E2 E3)]].
      apply (DoStart args o ps _ _ E E1 E2 E3). destruct ps as [|p [|q ps]]; cbn [hd tl]; [left; auto|right; left; auto|right; right; exists ps; reflexivity].
    + apply DoBad. intros o ps K. apply parse_iff in K. congruence.
  - intro H. unfold decide. destruct H as [H|o ps H H1|o ps H H1 H2|o ps pkg out H H1 H2 H3 H4|o H H1 H2 H3|o p ps H H1 H2 H3].
    + destruct (parse_args opts0 args) as [[o ps]|] eqn:E; [|reflexivity]. apply parse_iff in E. destruct (H o ps E).
    + apply parse_iff in H. rewrite H, H1. reflexivity.
    + apply parse_iff in H. rewrite H, H1, H2. reflexivity.
    + apply parse_iff in H. rewrite H, H1, H2, H3. destruct H4 as [(-> & -> & ->)|[(-> & ->)|(m & ->)]]; reflexivity.
    + apply parse_iff in H. rewrite H, H1, H2, H3. reflexivity.
    + apply parse_iff in H. rewrite H, H1, H2, H3. reflexivity.
Qed.
Print Assumptions c74_action.

(** Where the flags stand among the arguments does not matter. *)
Theorem c74_anywhere : forall items items' o ps, Forall item_ok items -> Forall item_ok items' -> flat_map says items = flat_map says items' -> flat_map argument items = flat_map argument items' ->
  means (flat_map words items) o ps -> means (flat_map words items') o ps.
Proof.
  intros items items' o ps H H' Es Ea M.
  destruct (run_says_total (flat_map says items) opts0 (says_read items H)) as [o1 E].
  pose proof (parse_complete items opts0 [] [] o1 (or_introl (conj eq_refl eq_refl)) H E) as P. rewrite Es in E. pose proof (parse_complete items' opts0 [] [] o1 (or_introl (conj eq_refl eq_refl)) H' E) as P'.
  rewrite app_nil_r in P, P'. rewrite app_nil_r in P, P'. apply parse_iff in M. rewrite P in M. injection M as <- <-. apply parse_iff. rewrite P', Ea. reflexivity.
Qed.
Print Assumptions c74_anywhere.

(** ** What is not so *)
(** The value of --transport may be anything; nothing says it is not a transport. *)
Theorem c74_transport_checked_refuted : forall v, decide [T "--transport=" ++ v; T "a.proto"] = AGenerate (set_text FTransport v opts0) [T "a.proto"].
Proof.
  intro v. apply c74_action. apply (DoGenerate _ (set_text FTransport v opts0) (T "a.proto") []); try reflexivity. apply parse_iff.
  exact (parse_complete [ILong FTransport v; IArg (T "a.proto")] opts0 [] [] (set_text FTransport v opts0) (or_introl (conj eq_refl eq_refl))
    ltac:(apply Forall_cons; [exists (VS v); constructor; reflexivity|apply Forall_cons; [right; discriminate|apply Forall_nil]]) eq_refl).
Qed.
Print Assumptions c74_transport_checked_refuted.
(** A transport whose name begins with est. cannot be given as -tNAME: the word is passed over without a message (the letters read -test., which pflag leaves to go test). *)
Theorem c74_test_word_passed_over : forall r, decide [T "-test." ++ r; T "a.proto"] = AGenerate opts0 [T "a.proto"].
Proof.
  intro r. apply c74_action. apply (DoGenerate _ opts0 (T "a.proto") []); try reflexivity. apply parse_iff.
  exact (parse_complete [IShort [] (ETest r); IArg (T "a.proto")] opts0 [] [] opts0 (or_introl (conj eq_refl eq_refl))
    ltac:(apply Forall_cons; [split; [constructor|split; [exact I|right; discriminate]]|apply Forall_cons; [right; discriminate|apply Forall_nil]]) eq_refl).
Qed.
Print Assumptions c74_test_word_passed_over.
(** A single dash does not make a long flag: -start is -s, then -t with the value art, so it writes start.proto; -svcout is -s -v -c and -o with the value ut, so the arguments become the name and the directory of a new .proto file. *)
Theorem c74_single_dash_refuted : decide [T "-start"] = AStart [] [] /\ decide [T "-help"] = ABadFlags /\ decide [T "-svcout"; T "x"; T "a.proto"] = AStart (T "x") (T "a.proto")
  /\ decide [T "-ctest"; T "a.proto"] = AGenerate (set_text FTransport (T "est") (set_bool FClient true opts0)) [T "a.proto"].
Proof. repeat split; reflexivity. Qed.
(** The value of a switch is not the next word: the word is a file. *)
Theorem c74_switch_takes_no_word : decide [T "--client"; T "false"] = AGenerate (set_bool FClient true opts0) [T "false"].
Proof. reflexivity. Qed.
(** Asking for help with an unknown flag on the line is an error. *)
Theorem c74_help_first_refuted : decide [T "--help"; T "--nope"] = ABadFlags.
Proof. reflexivity. Qed.

(** ** A line with some of each *)
Definition ex_line : list str := [T "a.proto"; T "-vc"; T "-o"; T "./out/"; T "b.proto"; T "--client=f"; T "-t=nats"; T "--"; T "-c.proto"].
Example c74_example : decide ex_line = AGenerate (mkOpts (T "./out/") true false false false false (T "nats") false false) [T "a.proto"; T "b.proto"; T "-c.proto"].
Proof. reflexivity. Qed.
Example c74_example_means : exists o ps, means ex_line o ps /\ op_client o = false /\ ps = [T "a.proto"; T "b.proto"; T "-c.proto"].
Proof. eexists _, _. split; [apply parse_iff; reflexivity|split; reflexivity]. Qed.
Example c74_example_bad : forall o ps, ~ means [T "--client=maybe"; T "a.proto"] o ps.
Proof. intros o ps K. apply parse_iff in K. discriminate. Qed.
Example c74_example_precedence : decide [T "-sVh"] = AUsage /\ decide [T "-sV"] = AVersion /\ decide [T "-s"; T "shop"; T "protos"; T "x"] = AStart (T "shop") (T "protos") /\ decide [T "-c"] = AMissing
  /\ decide [T "-h"; T "--help=0"; T "a.proto"] = AGenerate opts0 [T "a.proto"].
Proof. repeat split; reflexivity. Qed.

(** ** The flags by name: each word, long and short, sets its own option and no other. *)
Theorem c74_words :
  (forall v, parse_args opts0 [T "--svcout"; v] = Some (mkOpts v false false false false false (T "all") false false, []) /\ parse_args opts0 [T "-o"; v] = parse_args opts0 [T "--svcout"; v]) /\
  (forall v, parse_args opts0 [T "--transport"; v] = Some (mkOpts (T "./") false false false false false v false false, []) /\ parse_args opts0 [T "-t"; v] = parse_args opts0 [T "--transport"; v]) /\
  map (fun l => map (fun a => parse_args opts0 [a]) l)
    [[T "--verbose"; T "-v"]; [T "--help"; T "-h"]; [T "--start"; T "-s"]; [T "--version"; T "-V"]; [T "--client"; T "-c"]; [T "--svcdef"; T "-d"]; [T "--debug"]] =
  map (fun p => repeat (Some (fst p, [])) (snd p))
    [(mkOpts (T "./") true false false false false (T "all") false false, 2); (mkOpts (T "./") false true false false false (T "all") false false, 2);
     (mkOpts (T "./") false false true false false (T "all") false false, 2); (mkOpts (T "./") false false false true false (T "all") false false, 2);
     (mkOpts (T "./") false false false false true (T "all") false false, 2); (mkOpts (T "./") false false false false false (T "all") true false, 2);
     (mkOpts (T "./") false false false false false (T "all") false true, 1)].
Proof. split; [|split]; [intro v; split; reflexivity|intro v; split; reflexivity|vm_compute; reflexivity]. Qed.
Print Assumptions c74_words.
