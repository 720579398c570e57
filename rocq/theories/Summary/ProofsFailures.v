(** Proofs about durations below a microsecond, the columns, and failures without checks. *)
From Coq Require Import Ascii String ZArith Lia.
From stdpp Require Import list.
From Verif.Base Require Import Outcome ListLemmas.
From Verif.Text Require Import Model Spec.
From Verif.Log Require Import Model Spec Proofs.
From Verif.Summary Require Import Model Spec.
Local Notation "⌜ s ⌝" := (list_ascii_of_string s%string).
Local Notation length := List.length.

Lemma nanoseconds_ok d : (0 <= d < 1000)%Z -> stringify d = (in_digits d, ⌜"ns"⌝).
Proof. intros H. unfold stringify. repeat (case (Z.leb_spec _ d); intros ?; [lia|]). done. Qed.

Lemma aligned ind w f label c n : length label <= 34 -> length c <= w -> length n <= f ->
  length (row ind w f label c n []) = length ind + 34 + 2 + w + length ⌜";  Failures: "⌝ + f + 1
  /\ (row ind w f label c n []) !! (length ind + 34 + 2 + w) = Some ";"%char.
Proof.
  intros Hl Hc Hn. unfold row, left_aligned, right_aligned. split.
  - rewrite !app_length, !replicate_length. cbn [length list_ascii_of_string]. lia.
  - rewrite lookup_app_r by lia. rewrite lookup_app_r by (rewrite app_length, replicate_length; lia).
    rewrite app_length, replicate_length. rewrite lookup_app_r by (cbn [length list_ascii_of_string]; lia).
    rewrite lookup_app_r by (rewrite app_length, replicate_length; cbn [length list_ascii_of_string]; lia).
    rewrite app_length, replicate_length. cbn [length list_ascii_of_string app].
    match goal with |- _ !! ?i = _ => replace i with 0 by lia end. done.
Qed.

Lemma filter_fewer {A} (p q : A -> bool) l : length (List.filter (fun c => p c && q c) l) <= length (List.filter q l).
Proof. induction l as [|x l IH]; [done|]. cbn. destruct (p x), (q x); cbn; lia. Qed.

Lemma failures_have_checks md cs st nm delta : run_test md cs = Ok st -> Forall perf_alone cs ->
  (Z.of_nat (length cs) < 2 ^ 64)%Z -> (Z.of_nat (length (in_test cs)) < 2 ^ 64)%Z ->
  forall l c n, (l, c, n) ∈ kinds (summarize nm (res_of st) md delta) -> n <> 0%Z -> c <> 0%Z.
Proof.
  intros Hr Hp H1 H2 l c n Hin Hn. pose proof (summary_spec md cs st nm delta Hr Hp H1 H2) as H. cbv zeta in H.
  set (s := summarize nm (res_of st) md delta) in *. clearbody s.
  pose proof (filter_fewer (fails md) (fun c => negb (perf_check_in c)) cs) as F1.
  pose proof (filter_fewer (fails md) perf_check_in cs) as F2.
  unfold kinds in Hin. rewrite !elem_of_cons, elem_of_nil in Hin. unfold counters in H.
  destruct md; cbn [app] in H; injection H as ? ? ? ? ? ? ? ? ? ? ? ? ? ? ?; destruct_or! Hin; try done; injection Hin as -> -> ->; lia.
Qed.
