(** Properties C109 and C110: advice and the texts of failed comparisons. *)
From Coq Require Import Ascii String ZArith SpecFloat.
From stdpp Require Import list.
From Verif.Base Require Import Outcome.
From Verif.Text Require Import Model.
From Verif.Advice Require Import Model Spec Proofs.
Local Notation "⌜ s ⌝" := (list_ascii_of_string s%string).

(** ** C109: which values advice is given for *)
Theorem C109_same p t : utilize p t t = true.
Proof. exact (utilize_same p t). Qed.
Print Assumptions C109_same.

Theorem C109_floating p a t : floating a = true -> floating t = true -> utilize p a t = true <-> ~ narrowing p t a.
Proof. exact (utilize_floating p a t). Qed.
Print Assumptions C109_floating.

Example C109_floating_example : utilize lp64 Double Float = true /\ utilize lp64 Float Double = false.
Proof. done. Qed.

Theorem C109_truncation p a t : floating a = false -> floating t = true -> utilize p a t = false.
Proof. exact (utilize_truncation p a t). Qed.
Print Assumptions C109_truncation.

(** Missing: values of signed types for advisors with unsigned parameters, and integers for those with floating point ones. *)
Theorem C109_integers_partial p a t : sane p -> floating a = false -> floating t = false ->
  (is_signed p t = true -> is_signed p a = true) -> utilize p a t = true -> ~ narrowing p t a.
Proof. intros H. exact (utilize_integers p H a t). Qed.
Print Assumptions C109_integers_partial.

Example C109_integers_example : sane lp64 /\ sane llp64 /\ utilize lp64 Long UInt = true /\ utilize llp64 Long UInt = false.
Proof. unfold sane. cbn. repeat split; lia || done. Qed.

(** An advisor is used if its parameters have more bits, unless they are unsigned and the value is signed, or have less rank than int. *)
Theorem C109_wider p a t : sane p -> floating a = false -> floating t = false -> (rank Int <= rank a)%Z ->
  (width p t < width p a)%Z -> (is_signed p t = true -> is_signed p a = true) -> utilize p a t = true.
Proof. intros H. exact (utilize_wider p H a t). Qed.
Print Assumptions C109_wider.

Example C109_wider_example : (rank Int <= rank LLong)%Z /\ (width lp64 UShort < width lp64 LLong)%Z.
Proof. cbn. lia. Qed.

(** What the advisor sees: the value, or, if its parameters are unsigned and the value is negative, another one. *)
Theorem C109_seen p a t z : sane p -> utilize p a t = true -> floating a = false -> holds p t z ->
  seen p a z = z \/
  (z < 0 /\ is_signed p a = false /\ seen p a z = z + 2 ^ width p a /\ holds p a (seen p a z))%Z.
Proof. intros H. exact (utilize_seen p H a t z). Qed.
Print Assumptions C109_seen.

Example C109_seen_example : utilize lp64 ULong Short = true /\ holds lp64 Short (-3) /\ seen lp64 ULong (-3) = (2 ^ 64 - 3)%Z.
Proof. unfold holds. cbn. repeat split; lia || done. Qed.

(** Narrowing conversions are not ruled out: an advisor for unsigned int is used for int and sees 4294967295 instead of -1; one for
    float is used for long long, and sees 16777216 instead of 16777217. *)
Theorem C109_narrowing_refuted :
  (exists a t z, utilize lp64 a t = true /\ narrowing lp64 t a /\ holds lp64 t z /\ seen lp64 a z <> z) /\
  (exists t z z', utilize lp64 Float t = true /\ narrowing lp64 t Float /\ holds lp64 t z /\ holds lp64 t z' /\ z <> z' /\
     binary_normalize 24 128 z 0 false = binary_normalize 24 128 z' 0 false).
Proof.
  split.
  - exists UInt, Int, (-1)%Z. split; [done|]. split; [|split].
    + exists (-1)%Z. unfold holds. cbn. lia.
    + unfold holds. cbn. lia.
    + done.
  - exists LLong, 16777217%Z, 16777216%Z. unfold holds. cbn. repeat split; lia || done.
Qed.
Print Assumptions C109_narrowing_refuted.

(** Conversely an advisor for short is not used for signed char, though nothing is narrowed. *)
Theorem C109_widening_refuted : exists a t, utilize lp64 a t = false /\ ~ narrowing lp64 t a.
Proof. exists Short, SChar. split; [done|]. unfold narrowing, holds. cbn. intros (z & H1 & H2). lia. Qed.
Print Assumptions C109_widening_refuted.

(** The advice for the order of two values sees the result of their comparison in their place. *)
Theorem C109_order_refuted : exists x y x' y', (x, y) <> (x', y') /\
  forall to_string text_of_bool, prerequisite lp64 to_string text_of_bool Int true x y =
                                 prerequisite lp64 to_string text_of_bool Int true x' y' /\
  prerequisite lp64 to_string text_of_bool Int true x y =
    Ok [LogCheck;
        LogFailure (⌜"operator== returned false"⌝ ++ [nl] ++ body EqualTo (text_of_bool false) (text_of_bool true) ++
                    [nl] ++ ⌜"Advice: "⌝ ++ body EqualTo (to_string 0%Z) (to_string 1%Z))].
Proof.
  exists 9%Z, 7%Z, 5%Z, 5%Z. split; [done|]. intros to_string text_of_bool. split; [done|].
  unfold prerequisite. cbn [Z.ltb Z.compare Pos.compare Pos.compare_cont Z.b2z].
  rewrite prediction_spec. cbn [rbind].
  replace (utilize lp64 Int Bool) with true by done. rewrite failed_spec. cbn [advice prefix].
  rewrite <- !(assoc_L app). done.
Qed.
Print Assumptions C109_order_refuted.

(** ** C110: the texts of failed comparisons *)
Theorem C110_passed final c o q d : binary_comparison final c true o q d = Ok [LogCheck].
Proof. exact (passed_spec final c o q d). Qed.
Print Assumptions C110_passed.

(** What is said, and after it what is advised, if anything. *)
Theorem C110_failed final c o q d : binary_comparison final c false o q d =
  Ok [LogCheck; LogFailure (
    (match c with
     | EqualTo => ⌜"operator== returned false"⌝ ++ if final then [nl] ++ body c o q else []
     | _ => body c o q
     end) ++ match advice d with [] => [] | _ => match prefix d with [] => advice d | _ => [nl] ++ prefix d ++ advice d end end)].
Proof. exact (failed_spec final c o q d). Qed.
Print Assumptions C110_failed.

(** Different failures are told apart, as long as the first text is on one line. *)
Theorem C110_relations c c' o o' q q' r : one_line o -> one_line o' -> symbol c <> None -> symbol c' <> None ->
  failure_reporter true c o q = Ok r -> failure_reporter true c' o' q' = Ok r -> c = c' /\ o = o' /\ q = q'.
Proof. exact (relation_told_apart c c' o o' q q' r). Qed.
Print Assumptions C110_relations.

Theorem C110_equality o o' q q' r c : one_line o -> one_line o' ->
  failure_reporter true EqualTo o q = Ok r -> failure_reporter true c o' q' = Ok r -> c = EqualTo /\ o = o' /\ q = q'.
Proof. exact (equality_told_apart o o' q q' r c). Qed.
Print Assumptions C110_equality.

Theorem C110_tolerance o o' q q' t t' r : one_line o -> one_line o' -> " "%char ∉ q -> " "%char ∉ q' ->
  failure_reporter true (Within t) o q = Ok r -> failure_reporter true (Within t') o' q' = Ok r -> o = o' /\ q = q' /\ t = t'.
Proof. exact (tolerance_told_apart o o' q q' t t' r). Qed.
Print Assumptions C110_tolerance.

Example C110_example : one_line ⌜"5"⌝ /\ " "%char ∉ ⌜"4.5"⌝ /\
  failure_reporter true (Within ⌜"0.1"⌝) ⌜"5"⌝ ⌜"4.5"⌝ =
    Ok (⌜"Obtained : 5"⌝ ++ [nl] ++ ⌜"Predicted: 4.5 +/- 0.1"⌝) /\
  failure_reporter true LessEqual ⌜"5"⌝ ⌜"4"⌝ = Ok (⌜"Obtained : 5"⌝ ++ [nl] ++ ⌜"Predicted: <= 4"⌝).
Proof.
  split; [apply (bool_decide_unpack _); by vm_compute|]. split; [apply (bool_decide_unpack _); by vm_compute|].
  split; vm_compute; reflexivity.
Qed.

(** Values with several lines: two different pairs, the same message. *)
Theorem C110_told_apart_refuted : exists o q o' q', (o, q) <> (o', q') /\
  failure_reporter true EqualTo o q = failure_reporter true EqualTo o' q'.
Proof.
  exists ⌜"a"⌝, (⌜"b"⌝ ++ [nl] ++ ⌜"Predicted: c"⌝), (⌜"a"⌝ ++ [nl] ++ ⌜"Predicted: b"⌝), ⌜"c"⌝.
  split; [done|vm_compute; reflexivity].
Qed.
Print Assumptions C110_told_apart_refuted.

(** Without a prefix the advice is on the line of what was predicted. *)
Theorem C110_prefix_refuted : exists d m, advice d <> [] /\ append_to d m = Ok (m ++ advice d) /\ m <> [] /\ nl ∉ m.
Proof.
  exists (Advice ⌜"8"⌝ []), ⌜"Predicted: 4"⌝. split; [done|]. split; [vm_compute; reflexivity|]. split; [done|].
  apply (bool_decide_unpack _). by vm_compute.
Qed.
Print Assumptions C110_prefix_refuted.
