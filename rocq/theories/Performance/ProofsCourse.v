(** The loop of attempts (C78). *)
From Coq Require Import Ascii String QArith Qcanon Lia Lqa Permutation.
From stdpp Require Import list sorting.
From Verif.Base Require Import Outcome Compare.
From Verif.Text Require Import Model.
From Verif.Stats Require Model Spec Proofs.
From Verif.Log Require Model Spec Proofs ProofsText.
From Verif.Performance Require Import Model Spec ProofsNumbers.
Local Open Scope Qc_scope.
Local Notation "⌜ s ⌝" := (list_ascii_of_string s%string).

Section course.
  Context (root : Qc -> Qc) (show : Qc -> text) (coin : list task -> bool) (clock : list task -> task -> Qc).

  Lemma run_trials_spec n : forall base done seg, paired coin base done seg ->
    exists seg', paired coin base (done + n) seg' /\
      run_trials coin clock n (seg ++ base) (times clock Fast seg base) (times clock Slow seg base) =
      (seg' ++ base, times clock Fast seg' base, times clock Slow seg' base).
  Proof.
    induction n as [|n IH]; intros base dn seg Hp; cbn [run_trials].
    - exists seg. by rewrite Nat.add_0_r.
    - destruct (coin (seg ++ base)) eqn:Ec.
      + destruct (IH base (S dn) (Slow :: Fast :: seg) ltac:(by constructor)) as (seg' & Hp' & E).
        exists seg'. split; [by rewrite <- Nat.add_succ_comm|]. rewrite <- E. cbn [times app]. by rewrite !app_nil_r.
      + destruct (IH base (S dn) (Fast :: Slow :: seg) ltac:(by constructor)) as (seg' & Hp' & E).
        exists seg'. split; [by rewrite <- Nat.add_succ_comm|]. rewrite <- E. cbn [times app]. by rewrite !app_nil_r.
  Qed.

  Lemma run_trials_start n base : exists seg, paired coin base n seg /\
    run_trials coin clock n base [] [] = (seg ++ base, times clock Fast seg base, times clock Slow seg base).
  Proof. exact (run_trials_spec n base 0 [] (paired_none coin base)). Qed.

  Lemma paired_unique base n seg seg' : paired coin base n seg -> paired coin base n seg' -> seg = seg'.
  Proof.
    intros H. revert seg'. induction H as [|n seg H IH E|n seg H IH E]; intros seg' H'; inversion H' as [|? seg2 H2 E2|? seg2 H2 E2]; subst; try done;
      rewrite (IH _ H2) in *; congruence.
  Qed.

  Lemma paired_times base n seg : paired coin base n seg ->
    List.length (times clock Fast seg base) = n /\ List.length (times clock Slow seg base) = n /\ List.length seg = (2 * n)%nat.
  Proof.
    induction 1 as [|n seg H IH E|n seg H IH E]; [done| |]; cbn [times]; rewrite !app_length; cbn [List.length]; lia.
  Qed.

  Lemma append_two s1 s2 : s1 <> [] -> s2 <> [] -> Log.Model.append_lines_ s1 [s2] = Ok (s1 ++ [nl] ++ s2).
  Proof.
    intros H1 H2. rewrite Log.ProofsText.append_lines__spec. destruct s1 as [|x1 s1]; [done|]. destruct s2 as [|x2 s2]; [done|]. done.
  Qed.

  Lemma summary_text_spec a f s : summary_text show a f s = Ok (fast_line show a f ++ [nl] ++ slow_line show a f s).
  Proof.
    unfold summary_text. rewrite append_two by done. cbn [rbind]. f_equal. unfold stats_text, fast_line, slow_line, summarizer.
    rewrite <- !app_assoc. cbn [list_ascii_of_string app]. reflexivity.
  Qed.

  Lemma summary_message description a f s :
    Log.Model.append_lines_ description [fast_line show a f ++ [nl] ++ slow_line show a f s] = Ok (message show description a f s).
  Proof.
    unfold message. destruct (decide (description = [])) as [->|Hn].
    - rewrite Log.ProofsText.append_lines__spec. done.
    - rewrite append_two by done. by rewrite <- !app_assoc.
  Qed.

  Lemma attempts_spec md a : valid a -> forall r h0 sm p0, (0 < r <= max_attempts a)%nat ->
    exists k f s h, attempts root show coin clock md a r h0 sm p0 =
        Ok (h, fast_line show a f ++ [nl] ++ slow_line show a f s, verdict a f s) /\
      course root coin clock md a k f s (max_attempts a - r + 1) h0 h /\ (max_attempts a - r + 1 <= k <= max_attempts a)%nat.
  Proof.
    intros Hv. induction r as [|r IH]; intros h0 sm p0 Hr; [lia|]. cbn [attempts].
    set (j := (max_attempts a - S r + 1)%nat).
    destruct (run_trials_start (trials a * j) h0) as (seg & Hp & ->).
    destruct (paired_times _ _ _ Hp) as (Hf & Hs & _).
    assert (Hlen : (5 <= trials a * j)%nat). { destruct Hv as (_ & _ & _ & _ & Ht). destruct j eqn:Ej; [subst j; lia|]. nia. }
    destruct (stats_of_ok root (times clock Fast seg h0) ltac:(lia)) as (f & -> & Hsf). cbn [rbind].
    destruct (stats_of_ok root (times clock Slow seg h0) ltac:(lia)) as (s & -> & Hss). cbn [rbind].
    rewrite summary_text_spec. cbn [rbind].
    assert (Ha : attempt root coin clock a h0 j seg f s) by done.
    fold (hoped md (verdict a f s)).
    destruct (hoped md (verdict a f s)) eqn:Eh.
    - exists j, f, s, (seg ++ h0). split; [done|]. split; [|lia]. apply course_last; [done|by left].
    - destruct (decide (r = 0%nat)) as [->|Hr0].
      + cbn [attempts]. exists j, f, s, (seg ++ h0). split; [done|]. split; [|lia]. apply course_last; [done|right; lia].
      + destruct (IH (seg ++ h0) (fast_line show a f ++ [nl] ++ slow_line show a f s) (verdict a f s) ltac:(lia)) as (k & f' & s' & h & E & Hc & Hk).
        exists k, f', s', h. split; [done|]. replace (max_attempts a - r + 1)%nat with (S j) in Hc, Hk by lia. split; [|lia].
        apply (course_next _ _ _ _ _ _ _ _ _ _ seg f s); [done|done|lia|done].
  Qed.

  Lemma attempt_unique a base j seg seg' f s f' s' : (3 <= trials a * j)%nat ->
    attempt root coin clock a base j seg f s -> attempt root coin clock a base j seg' f' s' -> seg = seg' /\ f = f' /\ s = s'.
  Proof.
    intros Hl (H1 & H2 & H3) (H1' & H2' & H3'). pose proof (paired_unique _ _ _ _ H1 H1') as <-. split; [done|].
    destruct (paired_times _ _ _ H1) as (Hf & Hs & _). split; eapply statistics_unique; try done; lia.
  Qed.

  Lemma course_unique md a k k' f s f' s' j base h h' : valid a -> (0 < j)%nat ->
    course root coin clock md a k f s j base h -> course root coin clock md a k' f' s' j base h' ->
    k = k' /\ f = f' /\ s = s' /\ h = h'.
  Proof.
    intros Hv Hj H. revert Hj k' f' s' h'. induction H as [base seg Ha Hl|j base seg f1 s1 h Ha Hn Hlt Hc IH]; intros Hj k' f' s' h' H'.
    - assert (Hlen : (3 <= trials a * k)%nat) by (destruct Hv as (_ & _ & _ & _ & Ht); nia).
      inversion H' as [base2 seg2 Ha2 Hl2|j2 base2 seg2 f2 s2 h2 Ha2 Hn2 Hlt2 Hc2]; subst.
      + destruct (attempt_unique _ _ _ _ _ _ _ _ _ Hlen Ha Ha2) as (-> & -> & ->). done.
      + destruct (attempt_unique _ _ _ _ _ _ _ _ _ Hlen Ha Ha2) as (-> & -> & ->). destruct Hl as [Hl|Hl]; [congruence|lia].
    - assert (Hlen : (3 <= trials a * j)%nat) by (destruct Hv as (_ & _ & _ & _ & Ht); nia).
      inversion H' as [base2 seg2 Ha2 Hl2|j2 base2 seg2 f2 s2 h2 Ha2 Hn2 Hlt2 Hc2]; subst.
      + destruct (attempt_unique _ _ _ _ _ _ _ _ _ Hlen Ha Ha2) as (-> & -> & ->). destruct Hl2 as [Hl|Hl]; [congruence|lia].
      + destruct (attempt_unique _ _ _ _ _ _ _ _ _ Hlen Ha Ha2) as (-> & -> & ->). apply IH; [lia|done].
  Qed.

  Lemma not_valid_throws md description a : ~ valid a ->
    check_relative_performance root show coin clock md description a = Throw LogicError.
  Proof.
    intros Hn. unfold check_relative_performance.
    destruct (Qc_leb (min_speed_up a) 1) eqn:E1; [done|]. destruct (Qc_leb (max_speed_up a) 1) eqn:E2; [done|]. cbn [orb].
    destruct (Qc_ltb (max_speed_up a) (min_speed_up a)) eqn:E3; [done|]. destruct (Qc_leb (num_sds a) 1) eqn:E4; [done|].
    destruct (max_attempts a =? 0)%nat eqn:E5; [done|]. destruct (trials a <? 5)%nat eqn:E6; [done|].
    destruct Hn. apply Qc_leb_false in E1, E4. apply Qc_ltb_false in E3. apply Nat.eqb_neq in E5. apply Nat.ltb_ge in E6.
    repeat split; try done. lia.
  Qed.

  Lemma check_spec md description a : valid a ->
    exists k f s h, course root coin clock md a k f s 1 [] h /\ (1 <= k <= max_attempts a)%nat /\
      check_relative_performance root show coin clock md description a =
      Ok (h, verdict a f s, Log.Model.Scope (message show description a f s)
            (Log.Model.PerfCheck :: if verdict a f s then [] else [Log.Model.PerfFail []])).
  Proof.
    intros Hv. pose proof Hv as (H1 & H2 & H3 & H4 & H5). unfold check_relative_performance.
    rewrite (proj2 (Qc_leb_false _ _) H1), (proj2 (Qc_leb_false _ _) (Qclt_le_trans _ _ _ H1 H2)). cbn [orb].
    rewrite (proj2 (Qc_ltb_false _ _) H2), (proj2 (Qc_leb_false _ _) H3).
    rewrite (proj2 (Nat.eqb_neq _ _)) by lia. rewrite (proj2 (Nat.ltb_ge _ _)) by lia.
    destruct (attempts_spec md a Hv (max_attempts a) [] [] false ltac:(lia)) as (k & f & s & h & -> & Hc & Hk).
    cbn [rbind]. rewrite summary_message. cbn [rbind]. rewrite Nat.sub_diag in Hc, Hk. exists k, f, s, h. split; [done|]. by split; [lia|].
  Qed.

  (** How much is run. *)
  Lemma course_length md a k f s j base h : (0 < j)%nat -> course root coin clock md a k f s j base h ->
    (j <= k /\ List.length h + trials a * j * (j - 1) = List.length base + trials a * k * (k + 1))%nat.
  Proof.
    intros Hj. induction 1 as [base seg Ha Hl|j base seg f1 s1 h Ha Hn Hlt Hc IH].
    - destruct Ha as (Hp & _). destruct (paired_times _ _ _ Hp) as (_ & _ & Hlen). split; [lia|]. rewrite app_length, Hlen. nia.
    - destruct Ha as (Hp & _). destruct (paired_times _ _ _ Hp) as (_ & _ & Hlen). specialize (IH ltac:(lia)) as (IH1 & IH2).
      rewrite app_length, Hlen in IH2. split; [lia|]. replace (S j - 1)%nat with j in IH2 by lia.
      assert (trials a * S j * j = trials a * j * (j - 1) + 2 * (trials a * j))%nat by nia. lia.
  Qed.

  (** The last attempt gives what is hoped for, or it is the last one allowed and none gave it. *)
  Lemma course_end md a k f s j base h : course root coin clock md a k f s j base h ->
    hoped md (verdict a f s) = true \/ k = max_attempts a.
  Proof. by induction 1. Qed.
End course.

(** ** Constant times *)

Lemma times_constant coin tf ts base n seg : paired coin base n seg ->
  times (fun _ t => match t with Fast => tf | Slow => ts end) Fast seg base = replicate n tf /\
  times (fun _ t => match t with Fast => tf | Slow => ts end) Slow seg base = replicate n ts.
Proof.
  induction 1 as [|n seg H IH E|n seg H IH E]; [done| |]; cbn [times]; rewrite ?app_nil_r;
    destruct IH as [-> ->]; rewrite <- !replicate_S_end; done.
Qed.

Lemma replicate_total n x : Stats.Spec.total (replicate n x) = Stats.Spec.count (replicate n x) * x.
Proof.
  induction n as [|n IH]; [change (0 = Stats.Spec.Qc_of_Z 0 * x); rewrite Stats.Proofs.Qc_of_Z_0; ring|].
  cbn [replicate]. rewrite Stats.Proofs.count_cons. unfold Stats.Spec.total in *. cbn [fold_right]. rewrite IH. ring.
Qed.

Lemma statistics_replicate root n x : root 0 = 0 -> (3 <= n)%nat -> statistics root (replicate n x) (Stats x 0).
Proof.
  intros Hr Hn. exists (replicate (n - 2) x). split; [|split].
  - exists x, x. split; [by replace n with (S (S (n - 2))) at 1 by lia|].
    apply Forall_forall. intros y Hy. apply elem_of_replicate in Hy as [-> _]. split; apply Qcle_refl.
  - unfold Stats.Spec.is_mean. rewrite Stats.Proofs.total_shift, replicate_total. cbn [mean_of]. ring.
  - cbn [mean_of sd_of]. replace (Stats.Spec.sum_squares (replicate (n - 2) x) x) with 0.
    + unfold Qcdiv. rewrite Qcmult_0_l. done.
    + unfold Stats.Spec.sum_squares, Stats.Spec.total. induction (n - 2)%nat as [|m IH]; [done|].
      cbn [replicate map fold_right]. rewrite <- IH. ring.
Qed.


Lemma verdict_constant a tf ts : valid a -> 0 < tf -> verdict a (Stats tf 0) (Stats ts 0) = exactly a tf ts.
Proof.
  intros (H1 & H2 & H3 & _) Ht. unfold verdict, exactly. cbn [mean_of sd_of]. rewrite !Qcmult_0_r, !Qcplus_0_r.
  replace (ts - 0) with ts by ring.
  destruct (Qc_ltb tf ts) eqn:E.
  - by replace (Qc_leb 0 0) with true by done.
  - symmetry. apply andb_false_iff. left. apply Qc_leb_false. apply Qc_ltb_false in E. eapply Qcle_lt_trans; [exact E|].
    rewrite <- (Qcmult_1_l tf) at 1. by apply Qcmult_lt_compat_r.
Qed.

Lemma course_constant root coin tf ts md a k f s j base h : valid a -> root 0 = 0 -> 0 < tf -> (0 < j <= max_attempts a)%nat ->
  course root coin (fun _ t => match t with Fast => tf | Slow => ts end) md a k f s j base h ->
  f = Stats tf 0 /\ s = Stats ts 0 /\ k = if hoped md (exactly a tf ts) then j else max_attempts a.
Proof.
  intros Hv Hr Ht Hj H.
  assert (Hst : forall base j seg f s, (0 < j)%nat -> attempt root coin (fun _ t => match t with Fast => tf | Slow => ts end) a base j seg f s ->
    f = Stats tf 0 /\ s = Stats ts 0).
  { clear -Hv Hr. intros base j seg f s Hj (Hp & Hf & Hs). destruct (times_constant coin tf ts base _ seg Hp) as [E1 E2].
    rewrite E1 in Hf. rewrite E2 in Hs. assert (Hlen : (3 <= trials a * j)%nat) by (destruct Hv as (_ & _ & _ & _ & Htr); nia).
    split; eapply statistics_unique; try (by apply statistics_replicate); try done; by rewrite replicate_length. }
  revert Hj. induction H as [base seg Ha Hl|j base seg f1 s1 h Ha Hn Hlt Hc IH]; intros Hj.
  - destruct (Hst _ _ _ _ _ (proj1 Hj) Ha) as [-> ->]. split; [done|]. split; [done|].
    rewrite verdict_constant in Hl by done. destruct (hoped md _); [done|]. by destruct Hl.
  - destruct (Hst _ _ _ _ _ (proj1 Hj) Ha) as [-> ->]. rewrite verdict_constant in Hn by done.
    destruct (IH ltac:(lia)) as (E1 & E2 & E3). split; [done|]. split; [done|]. rewrite Hn in *. done.
Qed.

(** ** What the logger counts *)

Lemma logged_counters md msg (passed : bool) nm delta :
  exists st, Log.Model.run_test md [(msg, Log.Model.PerfCheck :: if passed then [] else [Log.Model.PerfFail []])] = Ok st /\
    Log.Spec.counters (Log.Model.summarize nm (Log.Model.res_of st) md delta) = expected_counters md passed.
Proof.
  destruct (Log.Proofs.run_test_spec md [(msg, Log.Model.PerfCheck :: if passed then [] else [Log.Model.PerfFail []])])
    as (st & E & _ & H). exists st. split; [done|]. cbn zeta in H. destruct H as (H1 & H2 & H3 & H4 & H5 & H6 & H7 & _).
  unfold Log.Spec.counters, Log.Model.summarize. cbn zeta. rewrite H1, H2, H3, H4, H5, H6, H7. by destruct md, passed.
Qed.

(** ** Calibration *)

Lemma Qceiling_facts x : (x <= inject_Z (Qround.Qceiling x))%Q /\ (inject_Z (Qround.Qceiling x - 1) < x)%Q.
Proof. split; [apply Qround.Qle_ceiling|apply Qround.Qceiling_lt]. Qed.

Lemma calibrate_one root den timings target : (forall x, 0 <= root x) -> (4 <= List.length timings)%nat ->
  exists st n, statistics root timings st /\ calibrate root 1 den timings target = Ok n /\ (target <= n)%Z /\
    if Qc_ltb (Q2Qc (target # den)) (mean_of st - sd_of st)
    then (inject_Z (n - 1) < inject_Z (Zpos den) * (this (mean_of st) + 5 * this (sd_of st)) <= inject_Z n)%Q
    else n = target.
Proof.
  intros Hr Hl. destruct (calibrate_spec root 1 den timings target Hl) as (st & Hst & E). rewrite E. clear E. exists st.
  replace (Q2Qc (inject_Z target * (Zpos 1 # den))) with (Q2Qc (target # den)).
  2: { apply Qc_is_canon. cbn [this Q2Qc]. rewrite !Qred_correct. unfold Qeq. cbn. lia. }
  assert (Hs : 0 <= sd_of st) by (destruct Hst as (mid & _ & _ & ->); apply Hr).
  destruct (Qc_ltb _ _) eqn:Ec.
  - rewrite Z.div_1_r. set (x := Stats.Spec.Qc_of_Z (Zpos den) * (mean_of st + Stats.Spec.Qc_of_Z 5 * sd_of st)).
    assert (Ex : (this x == inject_Z (Zpos den) * (this (mean_of st) + 5 * this (sd_of st)))%Q).
    { subst x. rewrite this_mult, this_plus, this_mult. unfold Stats.Spec.Qc_of_Z. cbn [this Q2Qc]. rewrite !Qred_correct. done. }
    destruct (Qceiling_facts x) as [H1 H2]. exists (Qc_ceiling x). split; [done|]. split; [done|]. split.
    + apply Qc_ltb_lt in Ec. unfold Qclt in Ec. rewrite this_minus in Ec. cbn [this Q2Qc] in Ec. rewrite Qred_correct in Ec.
      assert (Hlt : (inject_Z target < inject_Z (Qc_ceiling x))%Q).
      { eapply Qlt_le_trans; [|exact H1]. rewrite Ex.
        assert (Hm : ((target # den) < this (mean_of st) + 5 * this (sd_of st))%Q).
        { unfold Qcle in Hs. cbn [this Q2Qc] in Hs. change (Qred 0) with 0%Q in Hs. lra. }
        apply Qmult_lt_l with (z := inject_Z (Zpos den)) in Hm; [|done].
        eapply Qle_lt_trans; [|exact Hm]. unfold Qle. cbn. lia. }
      rewrite <- Zlt_Qlt in Hlt. lia.
    + unfold Qc_ceiling. rewrite <- Ex. by split.
  - exists target. split; [done|]. split; [done|]. by split; [lia|].
Qed.
