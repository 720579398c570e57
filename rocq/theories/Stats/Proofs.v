(** Lemmas for C41: statistics over exact rationals. *)
From Coq Require Import List ZArith QArith Qcanon Lia Permutation.
From Verif.Stats Require Import Model Spec.
Import ListNotations.
Local Open Scope Qc_scope.

Lemma Qc_of_Z_add a b : Qc_of_Z (a + b) = Qc_of_Z a + Qc_of_Z b.
Proof.
  unfold Qc_of_Z, Qcplus. apply Q2Qc_eq_iff. cbn [this Q2Qc]. rewrite !Qred_correct. rewrite inject_Z_plus. reflexivity.
Qed.
Lemma Qc_of_Z_opp a : Qc_of_Z (- a) = - Qc_of_Z a.
Proof.
  unfold Qc_of_Z, Qcopp. apply Q2Qc_eq_iff. cbn [this Q2Qc]. rewrite !Qred_correct. rewrite inject_Z_opp. reflexivity.
Qed.
Lemma Qc_of_Z_sub a b : Qc_of_Z (a - b) = Qc_of_Z a - Qc_of_Z b.
Proof. unfold Z.sub. rewrite Qc_of_Z_add, Qc_of_Z_opp. reflexivity. Qed.
Lemma Qc_of_Z_0 : Qc_of_Z 0 = 0.
Proof. apply Qc_is_canon. reflexivity. Qed.
Lemma Qc_of_Z_1 : Qc_of_Z 1 = 1.
Proof. apply Qc_is_canon. reflexivity. Qed.
Lemma Qc_of_Z_inj a b : Qc_of_Z a = Qc_of_Z b -> a = b.
Proof.
  unfold Qc_of_Z. intros H. apply Q2Qc_eq_iff in H. apply inject_Z_injective. exact H.
Qed.

Lemma count_cons x l : count (x :: l) = count l + 1.
Proof.
  unfold count. cbn [length]. rewrite Nat2Z.inj_succ, <- Z.add_1_r, Qc_of_Z_add, Qc_of_Z_1. reflexivity.
Qed.

Lemma fold_total {A} (f : A -> Qc) l s :
  fold_left (fun s x => s + f x) l s = s + total (map f l).
Proof.
  revert s. induction l as [|x l IH]; intros s; cbn [fold_left map total fold_right]; [ring|].
  rewrite IH. unfold total. ring.
Qed.

Lemma fold_plus l s : fold_left Qcplus l s = s + total l.
Proof.
  revert s. induction l as [|x l IH]; intros s; cbn [fold_left map total fold_right]; [ring|].
  rewrite IH. unfold total. ring.
Qed.

Lemma total_shift l m : total (map (fun x => x - m) l) = total l - count l * m.
Proof.
  induction l as [|x l IH].
  - unfold count. cbn. rewrite Qc_of_Z_0. ring.
  - rewrite count_cons. cbn [map total fold_right]. fold (total (map (fun x => x - m) l)) (total l).
    rewrite IH. ring.
Qed.

Lemma dist_nonzero (l : list Qc) : l <> [] -> (dist l =? 0)%Z = false.
Proof. intros H. apply Z.eqb_neq. unfold dist. destruct l; [congruence|cbn; lia]. Qed.

Lemma count_nonzero l : l <> [] -> count l <> 0.
Proof.
  intros H E. rewrite <- Qc_of_Z_0 in E. apply Qc_of_Z_inj in E. destruct l; [congruence|cbn in E; lia].
Qed.

Lemma mean_value root l : l <> [] -> mean (exact root) l = Some (total l / count l).
Proof.
  intros H. unfold mean. rewrite dist_nonzero by assumption. cbn [exact div_count add zero].
  rewrite fold_plus. unfold dist. fold (count l). do 2 f_equal. ring.
Qed.

Lemma is_mean_iff l m : l <> [] -> is_mean l m <-> m = total l / count l.
Proof.
  intros H. pose proof (count_nonzero l H) as Hc. unfold is_mean. rewrite total_shift. split.
  - intros E. assert (total l = count l * m) as ->; [|field; exact Hc].
    transitivity (total l - count l * m + count l * m); [ring|]. rewrite E. ring.
  - intros ->. field. exact Hc.
Qed.

Lemma mean_correct root l :
  match mean (exact root) l with
  | Some m => l <> [] /\ is_mean l m /\ m = total l / count l
  | None => l = []
  end.
Proof.
  destruct l as [|x l]; [reflexivity|].
  rewrite mean_value by discriminate. split; [discriminate|]. split; [|reflexivity].
  apply is_mean_iff; [discriminate|reflexivity].
Qed.

Lemma csd_value root l m : l <> [] -> mean (exact root) l = Some m ->
  cummulative_square_diffs (exact root) l = (Some (sum_squares l m), Some m).
Proof.
  intros H E. unfold cummulative_square_diffs. rewrite dist_nonzero by assumption. rewrite E.
  cbn [exact add mul sub zero]. rewrite (fold_total (fun x => (x - m) * (x - m))).
  unfold sum_squares. do 2 f_equal. ring.
Qed.

Lemma variance_value root l : l <> [] ->
  let m := total l / count l in
  variance (exact root) l = (Some (sum_squares l m / count l), Some m).
Proof.
  intros H m. unfold variance. rewrite dist_nonzero by assumption.
  rewrite (csd_value root l m H (mean_value root l H)). reflexivity.
Qed.

Lemma dist_one (l : list Qc) : (dist l =? 1)%Z = true <-> exists x, l = [x].
Proof.
  rewrite Z.eqb_eq. unfold dist. split.
  - destruct l as [|x [|y l]]; cbn; intros H; [lia|eauto|lia].
  - intros (x & ->). reflexivity.
Qed.

Lemma sample_variance_value root l : (2 <= length l)%nat ->
  let m := total l / count l in
  sample_variance (exact root) l = (Some (sum_squares l m / (count l - 1)), Some m).
Proof.
  intros H m. assert (l <> []) as Hl by (destruct l; [cbn in H; lia|discriminate]).
  unfold sample_variance. rewrite dist_nonzero by assumption.
  destruct (dist l =? 1)%Z eqn:E.
  { apply dist_one in E as (x & ->). cbn in H. lia. }
  rewrite (csd_value root l m Hl (mean_value root l Hl)). cbn [exact div_count].
  unfold dist. rewrite Qc_of_Z_sub, Qc_of_Z_1. reflexivity.
Qed.

Lemma single_mean (x : Qc) : total [x] / count [x] = x.
Proof.
  unfold count, total. cbn [fold_right length]. change (Qc_of_Z (Z.of_nat 1)) with (Qc_of_Z 1).
  rewrite Qc_of_Z_1. field. discriminate.
Qed.

Lemma variance_correct root l :
  match variance (exact root) l with
  | (Some v, Some m) => l <> [] /\ is_mean l m /\ v * count l = sum_squares l m
  | (None, None) => l = []
  | _ => False
  end.
Proof.
  destruct l as [|x l]; [reflexivity|].
  rewrite variance_value by discriminate. split; [discriminate|].
  split; [apply is_mean_iff; [discriminate|reflexivity]|].
  field. apply count_nonzero. discriminate.
Qed.

Lemma sample_variance_correct root l :
  match sample_variance (exact root) l with
  | (Some v, Some m) => (2 <= length l)%nat /\ is_mean l m /\ v * (count l - 1) = sum_squares l m
  | (None, Some m) => l = [m]
  | (None, None) => l = []
  | _ => False
  end.
Proof.
  destruct l as [|x [|y l]].
  - reflexivity.
  - unfold sample_variance. cbn [dist length]. change (Z.of_nat 1 =? 0)%Z with false.
    change (Z.of_nat 1 =? 1)%Z with true. cbn iota. rewrite mean_value by discriminate.
    rewrite single_mean. reflexivity.
  - rewrite sample_variance_value by (cbn; lia). split; [cbn; lia|].
    split; [apply is_mean_iff; [discriminate|reflexivity]|].
    field. rewrite !count_cons. intros E.
    change {| this := 1; canon := Qred_involutive 1 |} with 1 in E.
    assert (count l + 1 = 0) as E'. { rewrite <- E. ring. }
    rewrite <- count_cons with (x := x) in E'. revert E'. apply count_nonzero. discriminate.
Qed.

(** ** Deviations: the square root of the variance, and of the sum of squares over n - 3/2 *)
Lemma deviations root l :
  standard_deviation (exact root) l =
    (let (v, m) := variance (exact root) l in (option_map root v, m)) /\
  sample_standard_deviation (exact root) l =
    (let (v, m) := sample_variance (exact root) l in
     (option_map (fun v => root (v * (count l - 1) / (count l - Qc_of_Z 3 / Qc_of_Z 2))) v, m)).
Proof.
  destruct l as [|x [|y l]].
  - split; reflexivity.
  - split.
    + unfold standard_deviation. rewrite variance_value by discriminate. reflexivity.
    + reflexivity.
  - set (k := x :: y :: l). split.
    + unfold standard_deviation. rewrite variance_value by discriminate. reflexivity.
    + rewrite sample_variance_value by (cbn; lia). unfold sample_standard_deviation.
      rewrite dist_nonzero by discriminate.
      destruct (dist k =? 1)%Z eqn:E. { apply dist_one in E as (z & ?). discriminate. }
      rewrite (csd_value root k _ ltac:(discriminate) (mean_value root k ltac:(discriminate))).
      cbn [option_map exact sqrt div_count_half]. unfold dist. fold (count k).
      do 4 f_equal. field.
      unfold k. rewrite !count_cons. intros E'.
      change {| this := 1; canon := Qred_involutive 1 |} with 1 in E'.
      assert (count l + 1 = 0) as E2. { rewrite <- E'. ring. }
      rewrite <- count_cons with (x := x) in E2. revert E2. apply count_nonzero. discriminate.
Qed.

(** ** Permutation *)
Lemma total_perm l l' : Permutation l l' -> total l = total l'.
Proof.
  induction 1; cbn [total fold_right]; [reflexivity| | |congruence].
  - unfold total in *. cbn [fold_right]. rewrite IHPermutation. reflexivity.
  - ring.
Qed.

Lemma count_perm l l' : Permutation l l' -> count l = count l'.
Proof. intros H. unfold count. rewrite (Permutation_length H). reflexivity. Qed.

Lemma sum_squares_perm l l' m : Permutation l l' -> sum_squares l m = sum_squares l' m.
Proof. intros H. apply total_perm, Permutation_map, H. Qed.

Lemma perm_nonempty (l l' : list Qc) : Permutation l l' -> l <> [] -> l' <> [].
Proof. intros H Hl ->. apply Permutation_sym, Permutation_nil in H. auto. Qed.

Lemma permutation_invariant root l l' : Permutation l l' ->
  mean (exact root) l = mean (exact root) l' /\ variance (exact root) l = variance (exact root) l' /\
  sample_variance (exact root) l = sample_variance (exact root) l'.
Proof.
  intros HP. destruct l as [|x l].
  { apply Permutation_nil in HP as ->. repeat split. }
  assert (l' <> []) as Hl' by (eapply perm_nonempty; [exact HP|discriminate]).
  pose proof (total_perm _ _ HP) as Et. pose proof (count_perm _ _ HP) as Ec.
  split; [rewrite !mean_value by (assumption || discriminate); rewrite Et, Ec; reflexivity|].
  split.
  { rewrite !variance_value by (assumption || discriminate). cbv zeta.
    rewrite Et, Ec, (sum_squares_perm _ _ _ HP). reflexivity. }
  destruct l as [|y l].
  { apply Permutation_length_1_inv in HP as ->. reflexivity. }
  rewrite !sample_variance_value; [|rewrite <- (Permutation_length HP); cbn; lia|cbn; lia]. cbv zeta.
  rewrite Et, Ec, (sum_squares_perm _ _ _ HP). reflexivity.
Qed.

(** ** Translation *)
Lemma total_translate c l : total (map (Qcplus c) l) = count l * c + total l.
Proof.
  induction l as [|x l IH].
  - unfold count. cbn. rewrite Qc_of_Z_0. ring.
  - rewrite count_cons. cbn [map total fold_right]. fold (total (map (Qcplus c) l)) (total l).
    rewrite IH. ring.
Qed.

Lemma count_map c l : count (map (Qcplus c) l) = count l.
Proof. unfold count. rewrite map_length. reflexivity. Qed.

Lemma sum_squares_translate c l m : sum_squares (map (Qcplus c) l) (c + m) = sum_squares l m.
Proof.
  unfold sum_squares. rewrite map_map. f_equal. apply map_ext. intros x. ring.
Qed.

Lemma translation root c l :
  mean (exact root) (map (Qcplus c) l) = option_map (Qcplus c) (mean (exact root) l) /\
  fst (variance (exact root) (map (Qcplus c) l)) = fst (variance (exact root) l) /\
  fst (sample_variance (exact root) (map (Qcplus c) l)) = fst (sample_variance (exact root) l).
Proof.
  destruct l as [|x l]; [repeat split|].
  set (k := x :: l). assert (k <> []) as Hk by discriminate.
  assert (map (Qcplus c) k <> []) as Hk' by discriminate.
  assert (total (map (Qcplus c) k) / count (map (Qcplus c) k) = c + total k / count k) as Em.
  { rewrite count_map, total_translate. field. apply count_nonzero, Hk. }
  split; [rewrite !mean_value by assumption; rewrite Em; reflexivity|].
  split.
  { rewrite !variance_value by assumption. cbv zeta. rewrite Em, count_map, sum_squares_translate. reflexivity. }
  destruct l as [|y l]; [reflexivity|].
  rewrite !sample_variance_value by (cbn; lia). cbv zeta. rewrite Em, count_map, sum_squares_translate.
  reflexivity.
Qed.
