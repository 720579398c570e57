(** Properties of the parsing of command lines (C36, C37). *)
From Coq Require Import Ascii String.
From stdpp Require Import list.
From Verif.Base Require Import Outcome.
From Verif.Text Require Import Model.
From Verif.Graph Require Import Model ModelWeighted.
From Verif.CommandLine Require Import Model Spec ProofsParse ProofsLine ProofsHelp ProofsMain.

Local Notation "⌜ s ⌝" := (list_ascii_of_string s%string).

(** C36: exactly the lines of the grammar are accepted, and the operations are those the line means. *)
Theorem C36_accepted {E} : forall z ws (os : list (opt E)) z' ts, os <> [] ->
  parse (z :: ws) os = Ok (Outcome z' ts []) <-> z' = z /\ exists is, reads true os 0 ws is [] /\ Forall2 represents ts (trees_of is).
Proof. exact parse_ok_iff. Qed.
Print Assumptions C36_accepted.

(** C36: what is read, printed, is the line. *)
Theorem C36_printed {E} : forall top (os : list (opt E)) n ws is ws', reads top os n ws is ws' -> show is ++ ws' = ws.
Proof. exact reads_show. Qed.
Print Assumptions C36_printed.

(** C36: other lines ask for help or are rejected with std::runtime_error; std::logic_error needs an option without functions. *)
Theorem C36_total {E} : forall z ws (os : list (opt E)), os <> [] ->
  match parse (z :: ws) os with
  | Ok r => zeroth_arg r = z /\
      (help_text r = [] -> exists is, reads true os 0 ws is [] /\ Forall2 represents (operations r) (trees_of is))
      /\ (help_text r <> [] -> exists level ws', asks true os 0 ws level ws')
  | Throw RuntimeError => True
  | Throw LogicError => Exists (fun o => bound o = false) os
  | _ => False
  end.
Proof. exact parse_total. Qed.
Print Assumptions C36_total.

Theorem C36_rejected {E} : forall z ws (os : list (opt E)), os <> [] -> Forall (fun o => bound o = true) os ->
  (exists r, parse (z :: ws) os = Ok r) \/ parse (z :: ws) os = Throw RuntimeError.
Proof. exact parse_bound. Qed.
Print Assumptions C36_rejected.

(** C36: every option of the line has as many arguments as it has parameters, and every other word stands for aliases of
    options without parameters.  What is missing: it is so if options without functions have no parameters and the words
    which are looked at as several aliases begin with a dash and consist of aliases of options without parameters, or their
    first letter is no alias. *)
Theorem C36_exact_partial {E} : forall (os : list (opt E)) n ws is ws', bound_params os -> Forall (orderly os) ws ->
  reads true os n ws is ws' -> Forall exact_item is.
Proof. exact reads_all_exact. Qed.
Print Assumptions C36_exact_partial.

(** C36: the functions called, with their arguments, and their order. *)
Theorem C36_invoked {E} : forall z ws (os : list (opt E)) is, os <> [] -> reads true os 0 ws is [] ->
  parse_invoke (z :: ws) os = Ok ([], Zeroth z :: List.concat (map calls (trees_of is))).
Proof. exact invoke_reads. Qed.
Print Assumptions C36_invoked.

(** C37: the help is that of the options which might have been used where "--help" stands, if nothing follows; no function
    is called. *)
Theorem C37_help_partial {E} : forall z ws (os : list (opt E)) level, os <> [] -> asks true os 0 ws level [] -> Forall tidy level ->
  parse_invoke (z :: ws) os = Ok (help_of level, []).
Proof. exact invoke_asks. Qed.
Print Assumptions C37_help_partial.

(** C37: functions are called, if at all, when no help is given; and help only if it was asked for. *)
Theorem C37_nothing_executed {E} : forall z ws (os : list (opt E)), os <> [] ->
  match parse_invoke (z :: ws) os with
  | Ok (h, cs) =>
      (h <> [] -> cs = [] /\ exists level ws', asks true os 0 ws level ws')
      /\ (h = [] -> exists is, reads true os 0 ws is [] /\ cs = Zeroth z :: List.concat (map calls (trees_of is)))
  | Throw RuntimeError => True
  | Throw LogicError => Exists (fun o => bound o = false) os
  | _ => False
  end.
Proof. exact invoke_total. Qed.
Print Assumptions C37_nothing_executed.

(** C37: whatever follows a request for help, there is help or an exception. *)
Theorem C37_help_or_exception {E} : forall z ws (os : list (opt E)) level ws', os <> [] -> asks true os 0 ws level ws' ->
  match parse (z :: ws) os with
  | Ok r => help_text r <> []
  | Throw _ => ws' <> []
  | _ => False
  end.
Proof. exact parse_asks_any. Qed.
Print Assumptions C37_help_or_exception.

(** C37: arguments are never options nor requests for help, whatever they are. *)
Theorem C37_arguments {E} : forall z (os : list (opt E)) o w args ws is, w <> [] -> first_of (fun o => spelt o w) os o ->
  bound o = true -> o_children o = [] -> List.length args = List.length (o_params o) -> reads true os 0 ws is [] ->
  parse_invoke (z :: w :: args ++ ws) os =
    Ok ([], Zeroth z :: invoke (o_early o) args ++ invoke (o_late o) args ++ List.concat (map calls (trees_of is))).
Proof. exact invoke_plain. Qed.
Print Assumptions C37_arguments.

(** *** An example *)

Definition ex_family : opt nat := Opt ⌜"--family"⌝ [⌜"-f"⌝] [] None None [Opt ⌜"name"⌝ [] [⌜"n"⌝] (Some 9) None []].
Definition ex_gen : opt nat := Opt ⌜"gen-source"⌝ [⌜"-g"⌝] [⌜"dir"⌝] (Some 5) None [].
Definition ex_regular : opt nat := Opt ⌜"regular_test"⌝ [⌜"regular"⌝] [⌜"class"⌝; ⌜"equivalent"⌝] (Some 3) (Some 4) [ex_family; ex_gen].
Definition ex_create : opt nat := Opt ⌜"create"⌝ [⌜"-c"⌝] [] (Some 2) None [ex_regular].
Definition ex_test : opt nat := Opt ⌜"test"⌝ [⌜"-t"⌝] [⌜"name"⌝] (Some 1) None [].
Definition ex_verbose : opt nat := Opt ⌜"--verbose"⌝ [⌜"-v"⌝] [] (Some 6) None [].
Definition ex_quiet : opt nat := Opt ⌜"--quiet"⌝ [⌜"-q"⌝] [] (Some 7) None [].
Definition ex_options : list (opt nat) := [ex_test; ex_create; ex_verbose; ex_quiet].

Definition ex_line : list text :=
  [⌜"create"⌝; ⌜"regular"⌝; ⌜"C"⌝; ⌜"std::optional"⌝; ⌜"-f"⌝; ⌜"name"⌝; ⌜"F"⌝; ⌜"gen-source"⌝; ⌜"D"⌝; ⌜""⌝; ⌜"-vq"⌝;
   ⌜"test"⌝; ⌜"--help"⌝].

Definition ex_items : list (item nat) :=
  [Use ex_create ⌜"create"⌝ []
     [Use ex_regular ⌜"regular"⌝ [⌜"C"⌝; ⌜"std::optional"⌝]
        [Use ex_family ⌜"-f"⌝ [] [Use (Opt ⌜"name"⌝ [] [⌜"n"⌝] (Some 9) None []) ⌜"name"⌝ [⌜"F"⌝] []; Junk []];
         Use ex_gen ⌜"gen-source"⌝ [⌜"D"⌝] []; Blank; Junk []];
      Junk []];
   Group ⌜"-vq"⌝ [ex_verbose; ex_quiet];
   Use ex_test ⌜"test"⌝ [⌜"--help"⌝] []].

Ltac no_opt := apply (proj1 (find_opt_none _ _ _ (named_spelt _))); reflexivity.
Ltac read :=
  match goal with
  | |- reads _ _ _ [] [] _ => apply reads_end
  | |- reads _ _ _ _ (Blank :: _) _ => apply reads_blank; read
  | |- reads ?t ?os ?n _ (Use ?o ?w ?args ?sub :: ?is) _ =>
      eapply (reads_use t os n o w args); [done|apply (find_opt_some _ _ _ _ (named_spelt _)); reflexivity|done|reflexivity
        |first [apply below_none; reflexivity|apply below_some; [done|read]]|read]
  | |- reads _ _ _ _ (Group _ _ :: _) _ =>
      eapply reads_group; [no_opt|apply scan_word_true; reflexivity|intros _; by repeat constructor|read]
  | |- reads _ _ _ _ [Junk _] _ => eapply reads_stop; [done|no_opt|done|apply scan_word_false; reflexivity]
  end.

Example C36_example : reads true ex_options 0 ex_line ex_items [].
Proof. unfold ex_line, ex_items. read. Qed.

Example C36_example_calls : parse_invoke (⌜"/tests"⌝ :: ex_line) ex_options =
  Ok ([], [Zeroth ⌜"/tests"⌝; Invoke 2 []; Invoke 3 [⌜"C"⌝; ⌜"std::optional"⌝]; Invoke 9 [⌜"F"⌝]; Invoke 5 [⌜"D"⌝];
           Invoke 4 [⌜"C"⌝; ⌜"std::optional"⌝]; Invoke 6 []; Invoke 7 []; Invoke 1 [⌜"--help"⌝]]).
Proof. by vm_compute. Qed.

Ltac exacts :=
  lazymatch goal with
  | |- Forall exact_item [] => by constructor
  | |- Forall exact_item (_ :: _) =>
      apply Forall_cons; split;
        [first [apply exact_blank|apply exact_junk|apply exact_group; by repeat constructor
          |apply exact_use; [first [by left|right; left]|reflexivity|exacts]]|exacts]
  end.

Example C36_example_exact : bound_params ex_options /\ Forall (orderly ex_options) [⌜"create"⌝; ⌜"-vq"⌝; ⌜"--quiet"⌝] /\ Forall exact_item ex_items.
Proof.
  assert (Hlv : forall l, level_of ex_options l -> l ∈ [ex_options; [ex_regular]; [ex_family; ex_gen]; o_children ex_family; []]).
  { induction 1 as [|l o _ IH Ho]; [left|]. unfold ex_options in *. repeat setoid_rewrite elem_of_cons in IH. setoid_rewrite elem_of_nil in IH.
    destruct IH as [->|[->|[->|[->|[->|[]]]]]]; repeat (apply elem_of_cons in Ho as [->|Ho]; [cbn; repeat first [left; done|right]|]); by apply elem_of_nil in Ho. }
  split; [|split].
  - intros l o Hl Ho Hb. apply Hlv in Hl. repeat setoid_rewrite elem_of_cons in Hl. setoid_rewrite elem_of_nil in Hl.
    destruct Hl as [->|[->|[->|[->|[->|[]]]]]]; repeat (apply elem_of_cons in Ho as [->|Ho]; [done|]); by apply elem_of_nil in Ho.
  - assert (Hno : forall (l : list (opt nat)) w, scan_word l w = (false, []) -> compound w -> letters w <> [] ->
      exists c cs, letters w = c :: cs /\ Forall (fun o => [dash; c] ∉ o_aliases o) l).
    { intros l w H Hc Hn. apply scan_word_false in H as [[? _]|(_ & cs1 & c & cs2 & Hl & H2 & H3)]; [done|].
      inversion H2; subst. by exists c, cs2. }
    repeat (apply Forall_cons; split); [..|by constructor]; intros l Hl; apply Hlv in Hl; repeat setoid_rewrite elem_of_cons in Hl;
      setoid_rewrite elem_of_nil in Hl.
    + right; right. apply Hno; [|by exists "c"%char, "r"%char, ⌜"eate"⌝; split; [|intros [? _]]|done]. by destruct Hl as [->|[->|[->|[->|[->|[]]]]]].
    + destruct Hl as [->|Hl].
      * right; left. exists ⌜"vq"⌝. split; [done|]. split; [apply (bool_decide_unpack _); by vm_compute|].
        repeat (apply Forall_cons; split); [exists ex_verbose|exists ex_quiet|by constructor]; (split; [|done]);
          apply (find_opt_some _ _ _ _ (is_alias_in _)); reflexivity.
      * right; right. apply Hno; [|by exists "-"%char, "v"%char, ⌜"q"⌝; split; [|intros [_ [?|?]]]|done]. by destruct Hl as [->|[->|[->|[->|[]]]]].
    + left. intros (? & ? & ? & [= <- <- <-] & H). apply H. split; [done|]. by right.
  - unfold ex_items. exacts.
Qed.

Example C36_example_help : asks true ex_options 0 [⌜"-t"⌝; ⌜"x"⌝; ⌜"create"⌝; ⌜"regular"⌝; ⌜"C"⌝; ⌜"D"⌝; ⌜"--help"⌝] [ex_family; ex_gen] []
  /\ Forall tidy [ex_family; ex_gen].
Proof.
  split.
  - eapply (asks_after _ _ _ ex_test _ [⌜"x"⌝] _ []); [done|apply (find_opt_some _ _ _ _ (named_spelt _)); reflexivity|done|done|by apply below_none|].
    eapply (asks_below _ _ _ ex_create _ []); [done|apply (find_opt_some _ _ _ _ (named_spelt _)); reflexivity|done|done|done|].
    eapply (asks_below _ _ _ ex_regular _ [⌜"C"⌝; ⌜"D"⌝]); [done|apply (find_opt_some _ _ _ _ (named_spelt _)); reflexivity|done|done|done|].
    apply asks_here. no_opt.
  - repeat first [apply Forall_nil; exact I | apply Forall_cons; split | constructor | done ]; apply (bool_decide_unpack _); by vm_compute.
Qed.

Example C37_example : parse_invoke [⌜"/tests"⌝; ⌜"-t"⌝; ⌜"x"⌝; ⌜"create"⌝; ⌜"regular"⌝; ⌜"C"⌝; ⌜"D"⌝; ⌜"--help"⌝] ex_options =
  Ok (⌜"--family | -f |"⌝ ++ [nl] ++ ⌜"  name n"⌝ ++ [nl] ++ ⌜"gen-source | -g | dir"⌝ ++ [nl], []).
Proof. by vm_compute. Qed.

(** *** Where the claims fail *)

(** C36 is false: a word which is no option, nor begins with a dash, is accepted. *)
Theorem C36_first_character_refuted : exists (os : list (opt nat)) w, Forall (fun o => bound o = true) os /\ no_option os w
  /\ hd dash w <> dash /\ parse_invoke [[]; w] os = Ok ([], [Zeroth []; Invoke 6 []]).
Proof. exists ex_options, ⌜"xv"⌝. split; [by repeat constructor|]. split; [no_opt|]. split; [done|by vm_compute]. Qed.
Print Assumptions C36_first_character_refuted.

(** C36 is false: a word which stands for nothing is accepted. *)
Theorem C36_no_letters_refuted : exists (os : list (opt nat)) w, os <> [] /\ w <> [] /\ no_option os w
  /\ parse_invoke [[]; w] os = Ok ([], [Zeroth []]).
Proof. exists ex_options, ⌜"x-"⌝. split; [done|]. split; [done|]. split; [no_opt|by vm_compute]. Qed.
Print Assumptions C36_no_letters_refuted.

(** C36 is false: a function whose option has a parameter is called without an argument. *)
Theorem C36_no_argument_refuted : exists (os : list (opt nat)) o w, o ∈ os /\ o_early o = Some 1 /\ List.length (o_params o) = 1
  /\ parse_invoke [[]; w] os = Ok ([], [Zeroth []; Invoke 6 []; Invoke 1 []]).
Proof. exists ex_options, ex_test, ⌜"-vt"⌝. split; [left|]. split; [done|]. split; [done|by vm_compute]. Qed.
Print Assumptions C36_no_argument_refuted.

(** C36 is false: one word is taken both by an option below and by those above.  Here -v stands for different options
    below "a" and beside it. *)
Theorem C36_taken_twice_refuted : exists (os : list (opt nat)) ws, os <> [] /\
  ws = [⌜"a"⌝; ⌜"-vq"⌝] /\ parse_invoke ([] :: ws) os = Ok ([], [Zeroth []; Invoke 1 []; Invoke 2 []; Invoke 6 []; Invoke 7 []]).
Proof. exists [Opt ⌜"a"⌝ [] [] (Some 1) None [Opt ⌜"b"⌝ [⌜"-v"⌝] [] (Some 2) None []]; ex_verbose; ex_quiet], [⌜"a"⌝; ⌜"-vq"⌝]. split; [done|]. split; [done|]. by vm_compute. Qed.
Print Assumptions C36_taken_twice_refuted.

(** C36 is false: an option without functions gets away with one argument, though it has two parameters. *)
Theorem C36_short_refuted : exists (os : list (opt nat)) a b, os = [a] /\ o_children a = [b] /\ List.length (o_params a) = 1
  /\ List.length (o_params b) = 2 /\ o_name a = ⌜"a"⌝ /\ o_name b = ⌜"b"⌝
  /\ parse_invoke [[]; ⌜"a"⌝; ⌜"x"⌝; ⌜"b"⌝; ⌜"y"⌝] os = Ok ([], [Zeroth []; Invoke 1 [⌜"x"⌝; ⌜"y"⌝]]).
Proof.
  exists [Opt ⌜"a"⌝ [] [⌜"p"⌝] (Some 1) None [Opt ⌜"b"⌝ [] [⌜"q"⌝; ⌜"r"⌝] None None []]], (Opt ⌜"a"⌝ [] [⌜"p"⌝] (Some 1) None [Opt ⌜"b"⌝ [] [⌜"q"⌝; ⌜"r"⌝] None None []]),
    (Opt ⌜"b"⌝ [] [⌜"q"⌝; ⌜"r"⌝] None None []).
  repeat (split; [done|]). by vm_compute.
Qed.
Print Assumptions C36_short_refuted.

(** C36 is false: without options every line is accepted. *)
Theorem C36_no_options_refuted : exists (os : list (opt nat)), forall z ws, parse_invoke (z :: ws) os = Ok ([], [Zeroth z]).
Proof. exists []. exact no_options. Qed.
Print Assumptions C36_no_options_refuted.

(** C37 is false: what follows the request for help may cause an exception. *)
Theorem C37_followed_refuted : exists (os : list (opt nat)) ws level ws', os <> [] /\ asks true os 0 ws level ws'
  /\ parse_invoke ([] :: ws) os = Throw RuntimeError.
Proof.
  exists ex_options, [⌜"create"⌝; ⌜"--help"⌝; ⌜"bogus"⌝], [ex_regular], [⌜"bogus"⌝]. split; [done|]. split; [|by vm_compute].
  eapply (asks_below _ _ _ ex_create _ []); [done|apply (find_opt_some _ _ _ _ (named_spelt _)); reflexivity|done|done|done|]. apply asks_here. no_opt.
Qed.
Print Assumptions C37_followed_refuted.

(** C37 is false: asked twice, the help is that of the enclosing level. *)
Theorem C37_asked_twice_refuted : exists (os : list (opt nat)) ws level ws', os <> [] /\ asks true os 0 ws level ws'
  /\ Forall tidy level /\ help_of level <> help_of os /\ parse_invoke ([] :: ws) os = Ok (help_of os, []).
Proof.
  exists ex_options, [⌜"create"⌝; ⌜"--help"⌝; ⌜"--help"⌝], [ex_regular], [⌜"--help"⌝]. split; [done|]. split; [|split; [|split]].
  - eapply (asks_below _ _ _ ex_create _ []); [done|apply (find_opt_some _ _ _ _ (named_spelt _)); reflexivity|done|done|done|]. apply asks_here. no_opt.
  - repeat first [apply Forall_nil; exact I | apply Forall_cons; split | constructor | done ]; apply (bool_decide_unpack _); by vm_compute.
  - apply (bool_decide_unpack _). by vm_compute.
  - by vm_compute.
Qed.
Print Assumptions C37_asked_twice_refuted.

(** C37 is false: a name which ends with a comma loses it. *)
Theorem C37_comma_refuted : exists (os : list (opt nat)), os <> [] /\ exists h, parse_invoke [[]; help_word] os = Ok (h, []) /\ h <> help_of os.
Proof. exists [Opt ⌜"a,"⌝ [] [] (Some 1) None []]. split; [done|]. eexists. split; [by vm_compute|]. apply (bool_decide_unpack _). by vm_compute. Qed.
Print Assumptions C37_comma_refuted.
