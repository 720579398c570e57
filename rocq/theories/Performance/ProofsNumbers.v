(** Numbers: comparison of rationals, trimming, statistics and the verdict (C78). *)
From Coq Require Import QArith Qcanon Lqa Lia Permutation Qround.
From stdpp Require Import list sorting.
From Verif.Base Require Import Outcome Compare.
From Verif.Stats Require Model Spec Proofs.
From Verif.Performance Require Import Model Spec.
Local Open Scope Qc_scope.

Lemma this_plus x y : (this (x + y) == this x + this y)%Q.
Proof. unfold Qcplus. cbn [this Q2Qc]. apply Qred_correct. Qed.
Lemma this_mult x y : (this (x * y) == this x * this y)%Q.
Proof. unfold Qcmult. cbn [this Q2Qc]. apply Qred_correct. Qed.
Lemma this_opp x : (this (- x) == - this x)%Q.
Proof. unfold Qcopp. cbn [this Q2Qc]. apply Qred_correct. Qed.
Lemma this_minus x y : (this (x - y) == this x - this y)%Q.
Proof. unfold Qcminus. rewrite this_plus, this_opp. reflexivity. Qed.
Lemma this_inv x : (this (/ x) == / this x)%Q.
Proof. unfold Qcinv. cbn [this Q2Qc]. apply Qred_correct. Qed.

Ltac qc := unfold Qcdiv, Qcle, Qclt in *;
  repeat (rewrite ?this_plus, ?this_mult, ?this_minus, ?this_opp in *); cbn [this Q2Qc] in *; change (Qred 1) with 1%Q in *; change (Qred 0) with 0%Q in *; try lra.

Lemma Qc_ltb_lt x y : Qc_ltb x y = true <-> x < y.
Proof. unfold Qc_ltb. rewrite Qclt_alt. by destruct (x ?= y). Qed.
Lemma Qc_leb_le x y : Qc_leb x y = true <-> x <= y.
Proof. unfold Qc_leb. rewrite Qcle_alt. by destruct (x ?= y). Qed.
Lemma Qc_leb_false x y : Qc_leb x y = false <-> y < x.
Proof. unfold Qc_leb. transitivity (x ?= y = Gt); [by destruct (x ?= y)|symmetry; exact (Qcgt_alt x y)]. Qed.
Lemma Qc_ltb_false x y : Qc_ltb x y = false <-> y <= x.
Proof. unfold Qc_ltb. transitivity (x ?= y <> Lt); [by destruct (x ?= y)|symmetry; exact (Qcge_alt x y)]. Qed.

Lemma Qc_total : total_cmp Qccompare.
Proof.
  split.
  - intros x y. symmetry. apply Qceq_alt.
  - intros x y. unfold Qccompare. symmetry. apply Qcompare_antisym.
  - intros x y z. rewrite <- !Qclt_alt. apply Qclt_trans.
Qed.

Lemma le_by_le x y : le_by (cmp := Qccompare) x y <-> x <= y.
Proof.
  unfold le_by. rewrite <- Qclt_alt. split; [apply Qcnot_lt_le|]. apply Qcle_not_lt.
Qed.

(** ** Trimming *)

Lemma sorted_trim l0 l : StronglySorted (le_by (cmp := Qccompare)) (l0 :: l) -> l <> [] ->
  exists hi, l = removelast l ++ [hi] /\ l0 <= hi /\ Forall (fun x => l0 <= x <= hi) (l0 :: l).
Proof.
  intros Hs Hl. destruct (exists_last Hl) as (mid & hi & ->). exists hi. rewrite removelast_last.
  apply StronglySorted_inv in Hs as [Hs H0]. rewrite Forall_forall in H0.
  assert (Hh : forall x, x ∈ mid -> x <= hi).
  { clear H0. induction mid as [|y mid IH]; [by intros x Hx%elem_of_nil|]. cbn in Hs. apply StronglySorted_inv in Hs as [Hs HF].
    intros x [->|Hx]%elem_of_cons; [|apply IH; [by destruct mid|done|done]]. rewrite Forall_forall in HF. apply le_by_le, HF.
    apply elem_of_app. right. by apply elem_of_list_singleton. }
  assert (H0h : l0 <= hi). { apply le_by_le, H0. apply elem_of_app. right. by apply elem_of_list_singleton. }
  split; [done|]. split; [done|].
  apply Forall_forall. intros x [->|Hx]%elem_of_cons; [split; [apply Qcle_refl|done]|].
  split; [by apply le_by_le, H0|]. apply elem_of_app in Hx as [Hx|Hx]; [by apply Hh|].
  apply elem_of_list_singleton in Hx as ->. apply Qcle_refl.
Qed.

Lemma inner_ok data : (2 <= length data)%nat ->
  exists mid, inner (sort_by Qccompare data) = Ok mid /\ trimmed data mid /\ (length data = 2 + length mid)%nat.
Proof.
  intros Hl. pose proof (sort_by_perm (cmp := Qccompare) data) as Hp. pose proof (sort_by_sorted Qc_total data) as Hs.
  pose proof (Permutation_length Hp) as Hlen.
  destruct (sort_by Qccompare data) as [|l0 [|l1 l]] eqn:E; [cbn in Hlen; lia|cbn in Hlen; lia|].
  destruct (sorted_trim l0 (l1 :: l) Hs ltac:(done)) as (hi & Hd & H0h & HF).
  exists (removelast (l1 :: l)). split; [done|]. split.
  - exists l0, hi. split.
    + rewrite <- Hp. rewrite Hd at 1. constructor. by rewrite Permutation_app_comm.
    + by rewrite <- Hp.
  - apply (f_equal (@List.length Qc)) in Hd. rewrite app_length in Hd. cbn [length] in *. lia.
Qed.

Lemma trimmed_unique data mid mid' : trimmed data mid -> trimmed data mid' -> mid ≡ₚ mid'.
Proof.
  intros (lo & hi & Hp & HF) (lo' & hi' & Hp' & HF').
  assert (lo = lo') as <-.
  { rewrite Forall_forall in HF, HF'. apply Qcle_antisym.
    - apply (HF lo'). rewrite Hp'. constructor.
    - apply (HF' lo). rewrite Hp. constructor. }
  assert (hi = hi') as <-.
  { rewrite Forall_forall in HF, HF'. apply Qcle_antisym.
    - apply (HF' hi). rewrite Hp. right. constructor.
    - apply (HF hi'). rewrite Hp'. right. constructor. }
  rewrite Hp in Hp'. by apply Permutation_cons_inv, Permutation_cons_inv in Hp'.
Qed.

Lemma trimmed_length data mid : trimmed data mid -> (length data = 2 + length mid)%nat.
Proof. intros (lo & hi & Hp & _). by rewrite Hp. Qed.

(** ** Statistics *)

Lemma compute_stats_ok root mid : (2 <= length mid)%nat ->
  exists st, compute_stats root mid = Ok st /\ Stats.Spec.is_mean mid (mean_of st) /\
    sd_of st = root (Stats.Spec.sum_squares mid (mean_of st) / (Stats.Spec.count mid - Stats.Spec.Qc_of_Z 3 / Stats.Spec.Qc_of_Z 2)).
Proof.
  intros Hl. unfold compute_stats.
  pose proof (proj2 (Stats.Proofs.deviations root mid)) as Hd. pose proof (Stats.Proofs.sample_variance_correct root mid) as Hv.
  destruct (Stats.Model.sample_variance (Stats.Spec.exact root) mid) as [[v|] [m|]]; [|done|by rewrite Hv in Hl; cbn in Hl; lia|by rewrite Hv in Hl; cbn in Hl; lia].
  rewrite Hd. cbn [option_map value rbind]. destruct Hv as (Hn & Hm & Hv).
  eexists. split; [reflexivity|]. cbn [mean_of sd_of]. split; [done|]. do 2 f_equal. done.
Qed.

Lemma stats_of_ok root data : (4 <= length data)%nat ->
  exists st, stats_of root data = Ok st /\ statistics root data st.
Proof.
  intros Hl. destruct (inner_ok data ltac:(lia)) as (mid & E & Ht & Hlen).
  destruct (compute_stats_ok root mid ltac:(lia)) as (st & E2 & Hm & Hs).
  exists st. unfold stats_of. rewrite E. cbn [rbind]. split; [done|]. by exists mid.
Qed.

Lemma is_mean_unique l m m' : l <> [] -> Stats.Spec.is_mean l m -> Stats.Spec.is_mean l m' -> m = m'.
Proof.
  unfold Stats.Spec.is_mean. rewrite !Stats.Proofs.total_shift. intros Hl H H'.
  pose proof (Stats.Proofs.count_nonzero l Hl) as Hc.
  assert (E : Stats.Spec.count l * m = Stats.Spec.count l * m').
  { transitivity (Stats.Spec.total l).
    - rewrite <- (Qcplus_0_r (_ * m)), <- H. ring.
    - rewrite <- (Qcplus_0_r (_ * m')), <- H'. ring. }
  rewrite <- (Qcmult_1_l m), <- (Qcmult_1_l m'), <- (Qcmult_inv_l _ Hc), <- !Qcmult_assoc, E. done.
Qed.

Lemma total_perm l l' : l ≡ₚ l' -> Stats.Spec.total l = Stats.Spec.total l'.
Proof.
  induction 1 as [|x l l' _ IH|x y l|l1 l2 l3 _ IH1 _ IH2]; [done| |unfold Stats.Spec.total; cbn [fold_right]; ring|congruence].
  unfold Stats.Spec.total in *. cbn [fold_right]. by rewrite IH.
Qed.

Lemma statistics_unique root data st st' : (3 <= length data)%nat -> statistics root data st -> statistics root data st' -> st = st'.
Proof.
  intros Hl (mid & Ht & Hm & Hs) (mid' & Ht' & Hm' & Hs'). pose proof (trimmed_unique _ _ _ Ht Ht') as Hp.
  pose proof (trimmed_length _ _ Ht) as Hlen.
  assert (E : mean_of st = mean_of st').
  { apply (is_mean_unique mid'); [intros ->; rewrite (Permutation_length Hp) in Hlen; cbn in Hlen; lia| |done].
    unfold Stats.Spec.is_mean in *. rewrite <- Hm. apply total_perm. by rewrite Hp. }
  destruct st as [m s], st' as [m' s']. cbn [mean_of sd_of] in *. subst m' s s'. f_equal. f_equal. f_equal.
  - unfold Stats.Spec.sum_squares. apply total_perm. by rewrite Hp.
  - unfold Stats.Spec.count. by rewrite Hp.
Qed.

Lemma statistics_perm root data data' st : data ≡ₚ data' -> statistics root data st -> statistics root data' st.
Proof.
  intros Hp (mid & (lo & hi & H1 & H2) & Hm). exists mid. split; [|done]. exists lo, hi. rewrite <- Hp. by split.
Qed.

(** ** The verdict *)

Lemma Qc_le_mult_r x y z : 0 <= z -> x <= y -> x * z <= y * z.
Proof. intros Hz H. by apply Qcmult_le_compat_r. Qed.

Lemma Qcdiv_mult x y : y <> 0 -> x / y * y = x.
Proof. intros H. unfold Qcdiv. rewrite <- Qcmult_assoc, (Qcmult_comm (/ y)), Qcmult_inv_r by done. ring. Qed.

Lemma Qcmult_div x y : y <> 0 -> x * y / y = x.
Proof. intros H. unfold Qcdiv. rewrite <- Qcmult_assoc, Qcmult_inv_r by done. ring. Qed.

Lemma Qclt_not_0 x : 0 < x -> x <> 0.
Proof. intros H ->. by apply Qclt_not_eq in H. Qed.

Lemma div_le x y z : 0 < y -> x / y <= z <-> x <= z * y.
Proof.
  intros Hy. pose proof (Qclt_not_0 y Hy) as Hn. split; intros H.
  - rewrite <- (Qcdiv_mult x y Hn). apply Qc_le_mult_r; [by apply Qclt_le_weak|done].
  - apply (Qcmult_lt_0_le_reg_r _ _ y Hy). by rewrite Qcdiv_mult.
Qed.
Lemma le_div x y z : 0 < y -> z <= x / y <-> z * y <= x.
Proof.
  intros Hy. pose proof (Qclt_not_0 y Hy) as Hn. split; intros H.
  - rewrite <- (Qcdiv_mult x y Hn). apply Qc_le_mult_r; [by apply Qclt_le_weak|done].
  - apply (Qcmult_lt_0_le_reg_r _ _ y Hy). by rewrite Qcdiv_mult.
Qed.

(** A number between two products. *)
Lemma between c1 c2 m lo hi : 0 <= m -> c1 <= c2 -> lo <= hi -> c1 * m <= hi -> lo <= c2 * m ->
  exists c, c1 <= c <= c2 /\ lo <= c * m <= hi.
Proof.
  intros Hm Hc Hlh H1 H2. destruct (Qclt_le_dec (c1 * m) lo) as [Hlt|Hge].
  - assert (Hm0 : 0 < m).
    { destruct (Qcle_lt_or_eq _ _ Hm) as [?|<-]; [done|]. exfalso. revert Hlt H2. rewrite !Qcmult_0_r. intros Hlt H2. by apply Qclt_not_le in Hlt. }
    exists (lo / m). pose proof (Qclt_not_0 m Hm0) as Hn. rewrite Qcdiv_mult by done. split; [split|split; [apply Qcle_refl|done]].
    + apply le_div; [done|]. by apply Qclt_le_weak.
    + by apply div_le.
  - exists c1. split; [split; [apply Qcle_refl|done]|]. by split.
Qed.

Lemma verdict_criterion a f s : valid a -> 0 <= mean_of f -> 0 <= sd_of f -> 0 <= sd_of s ->
  verdict a f s = true <-> criterion a f s.
Proof.
  intros (H1 & H12 & Hk & _) Hm Hsf Hss. destruct f as [mf sf], s as [ms ss]. cbn [mean_of sd_of] in *. unfold verdict, criterion. cbn [mean_of sd_of].
  assert (Hk0 : 0 <= num_sds a) by qc.
  assert (Hkf : 0 <= num_sds a * sf). { rewrite <- (Qcmult_0_l sf). by apply Qc_le_mult_r. }
  assert (Hks : 0 <= num_sds a * ss). { rewrite <- (Qcmult_0_l ss). by apply Qc_le_mult_r. }
  destruct (Qc_ltb (mf + sf) (ms - ss)) eqn:Elt; [apply Qc_ltb_lt in Elt|apply Qc_ltb_false in Elt; split; [done|intros [H _]; exfalso; by apply Qclt_not_le in H]].
  assert (Hms : 0 <= ms) by qc.
  destruct (Qc_leb ss sf) eqn:Ele; rewrite andb_true_iff, !Qc_leb_le; unfold within.
  - split.
    + intros [Ha Hb]. split; [done|].
      destruct (between (min_speed_up a) (max_speed_up a) mf (ms - num_sds a * ss) (ms + num_sds a * ss)) as (c & Hc & Hd); [done|done|qc|done|done|].
      by exists c.
    + intros [_ (c & [Hc1 Hc2] & [Hd1 Hd2])]. pose proof (Qc_le_mult_r _ _ mf Hm Hc1) as G1. pose proof (Qc_le_mult_r _ _ mf Hm Hc2) as G2.
      split; qc.
  - assert (Hmin : 0 < min_speed_up a) by qc. assert (Hmax : 0 < max_speed_up a) by qc.
    split.
    + intros [Ha Hb]. split; [done|]. apply div_le in Ha; [|done]. apply le_div in Hb; [|done].
      destruct (Qclt_le_dec (mf - num_sds a * sf) (ms / max_speed_up a)) as [Hlt|Hge].
      * exists (max_speed_up a). split; [split; [done|apply Qcle_refl]|]. split; [by apply Qclt_le_weak|]. by apply div_le.
      * apply (div_le _ _ _ Hmax) in Hge. set (lo := mf - num_sds a * sf) in *.
        destruct (Qcle_lt_or_eq _ _ Hms) as [Hms0|Hms0].
        -- assert (Hlo : 0 < lo).
           { destruct (Qclt_le_dec 0 lo) as [?|Hle]; [done|]. exfalso. pose proof (Qc_le_mult_r _ _ (max_speed_up a) ltac:(by apply Qclt_le_weak) Hle) as G.
             rewrite Qcmult_0_l in G. pose proof (Qcle_trans _ _ _ Hge G). by apply Qclt_not_le in Hms0. }
           exists (ms / lo). split; [split|split].
           ++ apply le_div; [done|]. by rewrite Qcmult_comm.
           ++ apply div_le; [done|]. by rewrite Qcmult_comm.
           ++ apply le_div; [|].
              ** destruct (Qclt_le_dec 0 (ms / lo)) as [?|Hle]; [done|]. apply div_le in Hle; [|done]. rewrite Qcmult_0_l in Hle. by apply Qcle_not_lt in Hle.
              ** rewrite Qcmult_comm, Qcdiv_mult by (by apply Qclt_not_0). apply Qcle_refl.
           ++ apply div_le; [|].
              ** destruct (Qclt_le_dec 0 (ms / lo)) as [?|Hle]; [done|]. apply div_le in Hle; [|done]. rewrite Qcmult_0_l in Hle. by apply Qcle_not_lt in Hle.
              ** pose proof (Qclt_not_0 _ Hlo). assert (E : ms = lo * (ms / lo)) by (by rewrite Qcmult_comm, Qcdiv_mult).
                 rewrite E at 1. apply Qc_le_mult_r; [|subst lo; qc]. apply le_div; [done|]. rewrite Qcmult_0_l. done.
        -- subst ms. exfalso. qc.
    + intros [_ (c & [Hc1 Hc2] & [Hd1 Hd2])]. assert (Hc0 : 0 < c) by qc.
      apply (div_le _ _ _ Hc0) in Hd2. apply (le_div _ _ _ Hc0) in Hd1. split.
      * apply div_le; [done|]. eapply Qcle_trans; [exact Hd2|]. rewrite !(Qcmult_comm (mf + _)). apply Qc_le_mult_r; [qc|done].
      * apply le_div; [done|]. destruct (Qclt_le_dec (mf - num_sds a * sf) 0) as [Hneg|Hpos].
        -- apply Qcle_trans with 0; [|done]. rewrite <- (Qcmult_0_l (min_speed_up a)). apply Qc_le_mult_r; by apply Qclt_le_weak.
        -- eapply Qcle_trans; [|exact Hd1]. rewrite !(Qcmult_comm (mf - _)). by apply Qc_le_mult_r.
Qed.

Lemma criterion_monotone a a' f s : 0 <= sd_of f -> 0 <= sd_of s ->
  min_speed_up a' <= min_speed_up a -> max_speed_up a <= max_speed_up a' -> num_sds a <= num_sds a' ->
  criterion a f s -> criterion a' f s.
Proof.
  intros Hf Hs H1 H2 H3 [Hlt (c & [Hc1 Hc2] & Hw)]. split; [done|]. exists c. split; [split; eapply Qcle_trans; eassumption|].
  pose proof (Qc_le_mult_r _ _ _ Hf H3). pose proof (Qc_le_mult_r _ _ _ Hs H3).
  destruct (Qc_leb (sd_of s) (sd_of f)); unfold within in *; destruct Hw as [Hw1 Hw2]; split; qc.
Qed.

Lemma verdict_monotone a a' f s : valid a -> valid a' -> 0 <= mean_of f -> 0 <= sd_of f -> 0 <= sd_of s ->
  min_speed_up a' <= min_speed_up a -> max_speed_up a <= max_speed_up a' -> num_sds a <= num_sds a' ->
  verdict a f s = true -> verdict a' f s = true.
Proof.
  intros Hv Hv' Hm Hf Hs H1 H2 H3 H. apply verdict_criterion; [done..|]. apply (criterion_monotone a a'); [done..|]. by apply verdict_criterion.
Qed.

Lemma verdict_faster a f s : 0 <= sd_of f -> 0 <= sd_of s -> verdict a f s = true -> mean_of f < mean_of s.
Proof.
  intros Hf Hs. unfold verdict. destruct (Qc_ltb _ _) eqn:E; [|done]. apply Qc_ltb_lt in E. intros _. qc.
Qed.

(** ** Other units *)


Lemma leb_scale c x y : 0 < c -> Qc_leb (c * x) (c * y) = Qc_leb x y.
Proof.
  intros Hc. apply eq_true_iff_eq. rewrite !Qc_leb_le, !(Qcmult_comm c). split.
  - by apply Qcmult_lt_0_le_reg_r.
  - apply Qc_le_mult_r. by apply Qclt_le_weak.
Qed.
Lemma ltb_scale c x y : 0 < c -> Qc_ltb (c * x) (c * y) = Qc_ltb x y.
Proof.
  intros Hc. transitivity (negb (Qc_leb (c * y) (c * x))); [|rewrite leb_scale by done];
    unfold Qc_ltb, Qc_leb; rewrite (cmp_opp Qc_total); by destruct (_ ?= _).
Qed.

Lemma verdict_scale a c f s : 0 < c -> verdict a (scale c f) (scale c s) = verdict a f s.
Proof.
  intros Hc. unfold verdict, scale. cbn [mean_of sd_of].
  replace (c * mean_of f + c * sd_of f) with (c * (mean_of f + sd_of f)) by ring.
  replace (c * mean_of s - c * sd_of s) with (c * (mean_of s - sd_of s)) by ring.
  replace (min_speed_up a * (c * mean_of f)) with (c * (min_speed_up a * mean_of f)) by ring.
  replace (max_speed_up a * (c * mean_of f)) with (c * (max_speed_up a * mean_of f)) by ring.
  replace (c * mean_of s + num_sds a * (c * sd_of s)) with (c * (mean_of s + num_sds a * sd_of s)) by ring.
  replace (c * mean_of s - num_sds a * (c * sd_of s)) with (c * (mean_of s - num_sds a * sd_of s)) by ring.
  replace (c * mean_of f + num_sds a * (c * sd_of f)) with (c * (mean_of f + num_sds a * sd_of f)) by ring.
  replace (c * mean_of f - num_sds a * (c * sd_of f)) with (c * (mean_of f - num_sds a * sd_of f)) by ring.
  replace (c * mean_of s / max_speed_up a) with (c * (mean_of s / max_speed_up a)) by (unfold Qcdiv; ring).
  replace (c * mean_of s / min_speed_up a) with (c * (mean_of s / min_speed_up a)) by (unfold Qcdiv; ring).
  by rewrite ltb_scale, !leb_scale.
Qed.

Lemma total_scale c l : Stats.Spec.total (map (Qcmult c) l) = c * Stats.Spec.total l.
Proof. unfold Stats.Spec.total. induction l as [|x l IH]; cbn [map fold_right]; [ring|]. rewrite IH. ring. Qed.

Lemma statistics_scale root c data st : 0 < c -> (forall x, root (c * c * x) = c * root x) ->
  statistics root data st -> statistics root (map (Qcmult c) data) (scale c st).
Proof.
  intros Hc Hr (mid & (lo & hi & Hp & HF) & Hm & Hs). exists (map (Qcmult c) mid). split; [|split].
  - exists (c * lo), (c * hi). split; [by rewrite Hp|]. apply Forall_fmap. eapply Forall_impl; [exact HF|].
    intros x [H1 H2]. cbn. rewrite !(Qcmult_comm c). split; apply Qc_le_mult_r; try done; by apply Qclt_le_weak.
  - unfold Stats.Spec.is_mean in *. rewrite map_map. cbn [mean_of scale].
    rewrite <- (Qcmult_0_r c), <- Hm, <- total_scale, map_map. f_equal. apply map_ext. intros x. cbn [mean_of]. unfold scale; cbn [mean_of]; ring.
  - cbn [mean_of sd_of scale]. rewrite Hs, <- Hr. f_equal. unfold Stats.Spec.sum_squares. rewrite map_map.
    symmetry. transitivity (Stats.Spec.total (map (Qcmult (c * c)) (map (fun x => (x - mean_of st) * (x - mean_of st)) mid)) /
      (Stats.Spec.count (map (Qcmult c) mid) - Stats.Spec.Qc_of_Z 3 / Stats.Spec.Qc_of_Z 2)).
    { do 2 f_equal. rewrite map_map. apply map_ext. intros x. ring. }
    rewrite total_scale.
    unfold Stats.Spec.count. rewrite map_length. unfold Qcdiv. ring.
Qed.

(** ** Outliers *)

Lemma statistics_outlier root data x y st : (forall z, z ∈ data -> z <= x) -> x <= y ->
  statistics root (x :: data) st -> statistics root (y :: data) st.
Proof.
  intros Hx Hxy (mid & (lo & hi & Hp & HF) & Hm & Hs). exists mid. split; [|done].
  assert (hi = x) as ->.
  { rewrite Forall_forall in HF. apply Qcle_antisym.
    - assert (Hh : hi ∈ x :: data) by (rewrite Hp; right; constructor). apply elem_of_cons in Hh as [->|Hh]; [apply Qcle_refl|by apply Hx].
    - apply (HF x). constructor. }
  exists lo, y. split.
  - rewrite (Permutation_swap x lo) in Hp. apply Permutation_cons_inv in Hp. rewrite Hp. constructor.
  - apply Forall_cons in HF as [[Hlx _] HF]. apply Forall_cons. split; [split; [eapply Qcle_trans; eassumption|apply Qcle_refl]|].
    eapply Forall_impl; [exact HF|]. intros z [Hz1 Hz2]. split; [done|]. eapply Qcle_trans; eassumption.
Qed.

(** ** Calibration *)

Lemma calibrate_spec root num den timings target : (4 <= length timings)%nat ->
  exists st, statistics root timings st /\
    calibrate root num den timings target =
    if Qc_ltb (Q2Qc (inject_Z target * (Zpos num # den))) (mean_of st - sd_of st)
    then Ok (Qc_ceiling (Stats.Spec.Qc_of_Z (Zpos den / Zpos num) * (mean_of st + Stats.Spec.Qc_of_Z 5 * sd_of st)))
    else Ok target.
Proof.
  intros Hl. destruct (stats_of_ok root timings Hl) as (st & E & Hst). exists st. split; [done|].
  unfold stats_of in E. unfold calibrate, compute_stats in *. destruct (inner (sort_by Qccompare timings)) as [l| | |]; try done. cbn [rbind] in *.
  destruct (Stats.Model.sample_standard_deviation (Stats.Spec.exact root) l) as [[s|] [m|]]; cbn [value rbind] in E; try done.
  injection E as <-. cbn [mean_of sd_of]. reflexivity.
Qed.
