(** Claims about the checks of relative performance (C78) and about the comparison of their output with earlier
    output (C79). *)
From Coq Require Import Ascii String QArith Qcanon Lia Permutation.
From stdpp Require Import list.
From Verif.Base Require Import Outcome Compare.
From Verif.Text Require Import Model Spec.
From Verif.Stats Require Model Spec.
From Verif.Log Require Model Spec.
From Verif.Performance Require Import Model Spec ProofsNumbers ProofsCourse ProofsText ProofsClaims.
Local Open Scope Qc_scope.
Local Notation "⌜ s ⌝" := (list_ascii_of_string s%string).

(** Speed-ups from 9/5 to 11/5, five trials, four standard deviations, three attempts *)
Definition usual : arguments := extender_arguments (Q2Qc (9 # 5)) (Q2Qc (11 # 5)) default_trials default_sds.
Lemma usual_valid : valid usual.
Proof. repeat split; try done; cbn; lia. Qed.
Definition show_nothing (_ : Qc) : text := [].
(** A clock which is constant. *)
Definition steady (tf ts : Qc) (_ : list task) (t : task) : Qc := match t with Fast => tf | Slow => ts end.

(** ** C78 *)

Theorem C78_throws root show coin clock md description a : ~ valid a ->
  check_relative_performance root show coin clock md description a = Throw LogicError.
Proof. exact (not_valid_throws root show coin clock md description a). Qed.
Print Assumptions C78_throws.
Example C78_throws_ex : ~ valid (Args (Q2Qc 2) (Q2Qc 3) 4 (Q2Qc 4) 3).
Proof. intros (_ & _ & _ & _ & H). cbn in H. lia. Qed.

Theorem C78_course root show coin clock md description a : valid a ->
  exists k f s h, course root coin clock md a k f s 1 [] h /\
    check_relative_performance root show coin clock md description a =
    Ok (h, verdict a f s, Log.Model.Scope (message show description a f s)
          (Log.Model.PerfCheck :: if verdict a f s then [] else [Log.Model.PerfFail []])) /\
    forall k' f' s' h', course root coin clock md a k' f' s' 1 [] h' -> k' = k /\ f' = f /\ s' = s /\ h' = h.
Proof. exact (check_course root show coin clock md description a). Qed.
Print Assumptions C78_course.
(** The first attempt fails, the second passes. *)
Definition warming (h : list task) (t : task) : Qc :=
  match t with Fast => Q2Qc 1 | Slow => if decide (List.length h < 10)%nat then Q2Qc 3 else Q2Qc 2 end.
Example C78_course_ex : valid usual /\
  exists h e, check_relative_performance (fun x => x) show_nothing (fun h => Nat.even (List.length h / 2)) warming Log.Model.Standard [] usual = Ok (h, true, e) /\
    List.length h = 30%nat /\ take 4 h = [Slow; Fast; Fast; Slow].
Proof. split; [exact usual_valid|]. eexists _, _. split; [vm_compute; reflexivity|]. by vm_compute. Qed.

Theorem C78_runs root show coin clock md description a h passed e :
  check_relative_performance root show coin clock md description a = Ok (h, passed, e) ->
  exists k, (1 <= k <= max_attempts a)%nat /\ List.length h = (trials a * k * (k + 1))%nat /\
    (hoped md passed = true \/ k = max_attempts a).
Proof. exact (check_runs root show coin clock md description a h passed e). Qed.
Print Assumptions C78_runs.
Example C78_runs_ex : exists h e,
  check_relative_performance (fun x => x) show_nothing (fun _ => true) warming Log.Model.FalseNegative [] usual = Ok (h, false, e) /\ List.length h = 10%nat.
Proof. eexists _, _. split; [vm_compute; reflexivity|]. by vm_compute. Qed.

Theorem C78_members root show coin clock md description minS maxS tr sds h passed e :
  check_relative_performance root show coin clock md description (extender_arguments minS maxS tr sds) = Ok (h, passed, e) ->
  exists k, (k = 1 \/ k = 2 \/ k = 3)%nat /\ List.length h = (tr * k * (k + 1))%nat /\ (hoped md passed = false -> k = 3%nat).
Proof. exact (member_runs root show coin clock md description minS maxS tr sds h passed e). Qed.
Print Assumptions C78_members.
Example C78_members_ex : exists h e,
  check_relative_performance (fun x => x) show_nothing (fun _ => true) (steady (Q2Qc 1) (Q2Qc 3)) Log.Model.Standard [] usual = Ok (h, false, e) /\ List.length h = 60%nat.
Proof. eexists _, _. split; [vm_compute; reflexivity|]. by vm_compute. Qed.

Theorem C78_criterion a f s : valid a -> 0 <= mean_of f -> 0 <= sd_of f -> 0 <= sd_of s ->
  verdict a f s = true <-> criterion a f s.
Proof. exact (verdict_criterion a f s). Qed.
Print Assumptions C78_criterion.
Example C78_criterion_ex : valid usual /\ verdict usual (Stats (Q2Qc 1) (Q2Qc (1 # 10))) (Stats (Q2Qc 2) (Q2Qc (1 # 5))) = true /\
  verdict usual (Stats (Q2Qc 1) (Q2Qc (1 # 10))) (Stats (Q2Qc 4) (Q2Qc (1 # 5))) = false.
Proof. split; [exact usual_valid|]. by vm_compute. Qed.

Theorem C78_faster a f s : 0 <= sd_of f -> 0 <= sd_of s -> verdict a f s = true -> mean_of f < mean_of s.
Proof. exact (verdict_faster a f s). Qed.
Print Assumptions C78_faster.
Example C78_faster_ex : verdict usual (Stats (Q2Qc 1) 0) (Stats (Q2Qc 2) 0) = true.
Proof. by vm_compute. Qed.

Theorem C78_monotone a a' f s : valid a -> valid a' -> 0 <= mean_of f -> 0 <= sd_of f -> 0 <= sd_of s ->
  min_speed_up a' <= min_speed_up a -> max_speed_up a <= max_speed_up a' -> num_sds a <= num_sds a' ->
  verdict a f s = true -> verdict a' f s = true.
Proof. exact (verdict_monotone a a' f s). Qed.
Print Assumptions C78_monotone.
Example C78_monotone_ex : verdict usual (Stats (Q2Qc 1) (Q2Qc (1 # 10))) (Stats (Q2Qc 2) (Q2Qc (1 # 5))) = true /\
  valid (Args (Q2Qc (3 # 2)) (Q2Qc 3) 5 (Q2Qc 5) 1).
Proof. split; [by vm_compute|]. repeat split; try done; cbn; lia. Qed.

Theorem C78_scale root c a data data' f s : 0 < c -> (forall x, root (c * c * x) = c * root x) ->
  statistics root data f -> statistics root data' s ->
  statistics root (map (Qcmult c) data) (scale c f) /\ statistics root (map (Qcmult c) data') (scale c s) /\
  verdict a (scale c f) (scale c s) = verdict a f s.
Proof. exact (scaled root c a data data' f s). Qed.
Print Assumptions C78_scale.
Example C78_scale_ex : 0 < Q2Qc 1000 /\ statistics (fun _ => 0) (replicate 5 (Q2Qc 1)) (Stats (Q2Qc 1) 0).
Proof. split; [done|]. apply statistics_replicate; [done|lia]. Qed.

Theorem C78_order root data data' st : data ≡ₚ data' -> statistics root data st -> statistics root data' st.
Proof. exact (statistics_perm root data data' st). Qed.
Print Assumptions C78_order.
Example C78_order_ex : [Q2Qc 3; Q2Qc 1; Q2Qc 2] ≡ₚ [Q2Qc 1; Q2Qc 2; Q2Qc 3].
Proof. apply (Permutation_app_comm [Q2Qc 3]). Qed.

Theorem C78_outlier root data x y st : (forall z, z ∈ data -> z <= x) -> x <= y ->
  statistics root (x :: data) st -> statistics root (y :: data) st.
Proof. exact (statistics_outlier root data x y st). Qed.
Print Assumptions C78_outlier.
Example C78_outlier_ex : statistics (fun _ => 0) (Q2Qc 1 :: replicate 4 (Q2Qc 1)) (Stats (Q2Qc 1) 0) /\
  forall z, z ∈ replicate 4 (Q2Qc 1) -> z <= Q2Qc 1.
Proof.
  split; [apply (statistics_replicate (fun _ => 0) 5); [done|lia]|]. intros z Hz. apply elem_of_replicate in Hz as [-> _]. apply Qcle_refl.
Qed.

Theorem C78_constant root coin a tf ts md k f s h : valid a -> root 0 = 0 -> 0 < tf ->
  course root coin (steady tf ts) md a k f s 1 [] h ->
  f = Stats tf 0 /\ s = Stats ts 0 /\ verdict a f s = exactly a tf ts /\
  k = if hoped md (exactly a tf ts) then 1%nat else max_attempts a.
Proof. exact (constant root coin a tf ts md k f s h). Qed.
Print Assumptions C78_constant.
Example C78_constant_ex : valid usual /\ exactly usual (Q2Qc 1) (Q2Qc 2) = true /\ exactly usual (Q2Qc 1) (Q2Qc (17 # 10)) = false /\
  exists k f s h, course (fun x => x) (fun _ => true) (steady (Q2Qc 1) (Q2Qc 2)) Log.Model.Standard usual k f s 1 [] h.
Proof.
  split; [exact usual_valid|]. split; [by vm_compute|]. split; [by vm_compute|].
  destruct (check_course (fun x => x) show_nothing (fun _ => true) (steady (Q2Qc 1) (Q2Qc 2)) Log.Model.Standard [] usual usual_valid)
    as (k & f & s & h & H & _). by exists k, f, s, h.
Qed.

Theorem C78_counts root show coin clock md description a h passed e :
  check_relative_performance root show coin clock md description a = Ok (h, passed, e) ->
  exists msg es, e = Log.Model.Scope msg es /\ forall nm delta, exists st, Log.Model.run_test md [(msg, es)] = Ok st /\
    Log.Spec.counters (Log.Model.summarize nm (Log.Model.res_of st) md delta) = expected_counters md passed.
Proof. exact (check_logged root show coin clock md description a h passed e). Qed.
Print Assumptions C78_counts.
Example C78_counts_ex : exists h e,
  check_relative_performance (fun x => x) show_nothing (fun _ => true) warming Log.Model.FalsePositive [] usual = Ok (h, true, e).
Proof. eexists _, _. vm_compute; reflexivity. Qed.

(** The documentation (PerformanceTestCore.hpp L30-73) says that a check fails if [m_f + sig_f < m_s + sig_s] and that
    the greatest speed-up must be greater than the least one. *)
Theorem C78_documentation_refuted : exists root coin clock a k f s h,
  min_speed_up a = max_speed_up a /\ valid a /\ course root coin clock Log.Model.Standard a k f s 1 [] h /\
  mean_of f + sd_of f < mean_of s + sd_of s /\ verdict a f s = true.
Proof. exact documentation_wrong. Qed.
Print Assumptions C78_documentation_refuted.

(** For units of which a second has a whole number. *)
Theorem C78_calibrate_partial root den timings target : (forall x, 0 <= root x) -> (4 <= List.length timings)%nat ->
  exists st n, statistics root timings st /\ calibrate root 1 den timings target = Ok n /\ (target <= n)%Z /\
    if Qc_ltb (Q2Qc (target # den)) (mean_of st - sd_of st)
    then (inject_Z (n - 1) < inject_Z (Zpos den) * (this (mean_of st) + 5 * this (sd_of st)) <= inject_Z n)%Q
    else n = target.
Proof. exact (calibrate_one root den timings target). Qed.
Print Assumptions C78_calibrate_partial.
Example C78_calibrate_ex : calibrate (fun _ => 0) 1 1000 (replicate 7 (Q2Qc (1 # 200))) 3 = Ok 5%Z /\
  calibrate (fun _ => 0) 1 1000 (replicate 7 (Q2Qc (1 # 500))) 3 = Ok 3%Z.
Proof. by vm_compute. Qed.

(** One minute, although it takes 61 seconds to sleep for a minute: the result is nothing at all. *)
Theorem C78_calibrate_refuted : exists root num den timings target n, (forall x, 0 <= root x) /\ List.length timings = 7%nat /\
  calibrate root num den timings target = Ok n /\ (n < target)%Z.
Proof.
  exists (fun _ => 0), 60%positive, 1%positive, (replicate 7 (Q2Qc 61)), 1%Z, 0%Z.
  split; [intros _; done|]. split; [done|]. split; [by vm_compute|done].
Qed.
Print Assumptions C78_calibrate_refuted.

(** ** C79 *)

Lemma plain_by (x : text) : bool_decide (Forall (fun c => c ∉ nl :: ⌜ "-*()s;" ⌝) x) = true -> plain x.
Proof.
  intros Hx. apply bool_decide_eq_true in Hx. rewrite Forall_forall in Hx. split.
  - apply Forall_forall. intros c Hc. specialize (Hx c Hc). by apply not_elem_of_cons in Hx as [_ ?].
  - intros Hc. specialize (Hx nl Hc). by apply not_elem_of_cons in Hx as [? _].
Qed.
Ltac plains := repeat (apply Forall_cons; split; [apply plain_by; by vm_compute|]); apply Forall_nil_2.

Definition br (s : string) : text := list_ascii_of_string s ++ [nl].

Theorem C79_returns fuel t r : (List.length t < fuel)%nat -> exists x, postprocess fuel t r = Ok x /\ (x = t \/ x = r) /\ (t = r -> x = t).
Proof. exact (postprocess_ok fuel t r). Qed.
Print Assumptions C79_returns.
Example C79_returns_ex : postprocess 100 (br "Fast Task duration: 1s +- 4 * 2s") (br "Fast Task duration: 3s +- 4 * 2s") = Ok (br "Fast Task duration: 3s +- 4 * 2s") /\
  postprocess 100 (br "Fast Task duration: 1s +- 4 * 2s") (br "Fast Task duration: 3s +- 5 * 2s") = Ok (br "Fast Task duration: 1s +- 4 * 2s").
Proof. by vm_compute. Qed.

Theorem C79_sound fuel t r : postprocess fuel t r = Ok r -> t <> r ->
  List.length (lines t) = List.length (lines r) /\
  forall i l l', lines t !! i = Some l -> lines r !! i = Some l' -> l <> l' ->
    exists j l0, (j <= i)%nat /\ lines t !! j = Some l0 /\ occurs phrase l0.
Proof. exact (postprocess_sound fuel t r). Qed.
Print Assumptions C79_sound.
Example C79_sound_ex : postprocess 100 (br "Fast Task duration: 1s +- 4 * 2s") (br "Fast Task duration: 3s +- 4 * 2s") = Ok (br "Fast Task duration: 3s +- 4 * 2s") /\
  br "Fast Task duration: 1s +- 4 * 2s" <> br "Fast Task duration: 3s +- 4 * 2s".
Proof. by vm_compute. Qed.

Theorem C79_complete fuel p ls ls' rest : Forall2 same_but_measured ls ls' -> (List.length (p ++ ended ls ++ rest) < fuel)%nat ->
  postprocess fuel (p ++ ended ls ++ rest) (p ++ ended ls' ++ rest) = Ok (p ++ ended ls' ++ rest).
Proof. exact (postprocess_complete fuel p ls ls' rest). Qed.
Print Assumptions C79_complete.

Theorem C79_messages fuel show before d a f s f' s' rest :
  Forall (fun x => plain (show x)) [mean_of f; sd_of f; mean_of s; sd_of s; mean_of s / mean_of f;
    mean_of f'; sd_of f'; mean_of s'; sd_of s'; mean_of s' / mean_of f'; num_sds a; min_speed_up a; max_speed_up a] ->
  (List.length (before ++ message show d a f s ++ nl :: rest) < fuel)%nat ->
  postprocess fuel (before ++ message show d a f s ++ nl :: rest) (before ++ message show d a f' s' ++ nl :: rest) =
  Ok (before ++ message show d a f' s' ++ nl :: rest).
Proof. exact (postprocess_messages fuel show before d a f s f' s' rest). Qed.
Print Assumptions C79_messages.
Example C79_messages_ex : Forall plain [⌜ "0.25" ⌝; ⌜ "4" ⌝; ⌜ "12.5" ⌝] /\
  Forall2 same_but_measured
    [⌜ "Slow Task duration: 0.25s +- 4 * 0.01s [2; (1.8, 2.2)]" ⌝] [⌜ "Slow Task duration: 0.27s +- 4 * 0.02s [2.1; (1.8, 2.2)]" ⌝].
Proof.
  split; [plains|]. constructor; [|constructor].
  apply (measured_long ⌜ "Slow " ⌝ ⌜ "0.25" ⌝ ⌜ "0.01" ⌝ ⌜ "2" ⌝ ⌜ "0.27" ⌝ ⌜ "0.02" ⌝ ⌜ "2.1" ⌝ ⌜ "4" ⌝ ⌜ "1.8" ⌝ ⌜ "2.2" ⌝);
    first [apply plain_by; by vm_compute | apply (bool_decide_unpack _); by vm_compute].
Qed.

Theorem C79_notices_partial fuel p before x x' k k' y y' q q' mn mx mn' mx' t' r' :
  Forall plain [x; x'; k; k'; y; y'; q; q'; mn; mx; mn'; mx'] ->
  (x <> x' /\ (k <> k' \/ mn ++ ⌜ ", " ⌝ ++ mx <> mn' ++ ⌜ ", " ⌝ ++ mx')) \/
  (x = x' /\ k = k' /\ (y <> y' \/ q <> q') /\ mn ++ ⌜ ", " ⌝ ++ mx <> mn' ++ ⌜ ", " ⌝ ++ mx') ->
  (0 < fuel)%nat ->
  postprocess fuel (p ++ measured_line before x k y (Some (q, mn, mx)) ++ nl :: t') (p ++ measured_line before x' k' y' (Some (q', mn', mx')) ++ nl :: r') =
  Ok (p ++ measured_line before x k y (Some (q, mn, mx)) ++ nl :: t').
Proof. exact (postprocess_notices fuel p before x x' k k' y y' q q' mn mx mn' mx' t' r'). Qed.
Print Assumptions C79_notices_partial.
Example C79_notices_ex : postprocess 100 (br "Slow Task duration: 0.25s +- 4 * 0.01s [2; (1.8, 2.2)]") (br "Slow Task duration: 0.25s +- 4 * 0.01s [2.1; (1.8, 2.3)]") =
  Ok (br "Slow Task duration: 0.25s +- 4 * 0.01s [2; (1.8, 2.2)]").
Proof. by vm_compute. Qed.

Theorem C79_diagnostics fuel output file : (List.length output < fuel)%nat ->
  diagnostics_to_use fuel Log.Model.Standard output file = Ok output /\
  (forall md, md <> Log.Model.Standard ->
    diagnostics_to_use fuel md output (Some None) = Throw RuntimeError /\
    (output <> [] -> diagnostics_to_use fuel md output None = Ok output) /\
    (forall c, diagnostics_to_use fuel md output (Some (Some c)) = postprocess fuel output c)).
Proof. exact (diagnostics_cases fuel output file). Qed.
Print Assumptions C79_diagnostics.
Example C79_diagnostics_ex : Log.Model.FalsePositive <> Log.Model.Standard /\
  diagnostics_to_use 100 Log.Model.FalseNegative (br "Task duration: 2s") (Some (Some (br "Task duration: 3s"))) = Ok (br "Task duration: 3s").
Proof. by vm_compute. Qed.

(** The number of standard deviations is not noticed to have changed if nothing in front of it has. *)
Theorem C79_sds_refuted : exists fuel before x y k k', Forall plain [x; y; k; k'] /\ k <> k' /\
  postprocess fuel (measured_line before x k y None ++ [nl]) (measured_line before x k' y None ++ [nl]) = Ok (measured_line before x k' y None ++ [nl]).
Proof.
  exists 100%nat, ⌜ "Fast " ⌝, ⌜ "1" ⌝, ⌜ "2" ⌝, ⌜ "4" ⌝, ⌜ "5" ⌝. split; [|by vm_compute].
  plains.
Qed.
Print Assumptions C79_sds_refuted.

(** Nor are the bounds. *)
Theorem C79_bounds_refuted : exists fuel before x y k q mn mx mx', Forall plain [x; y; k; q; mn; mx; mx'] /\ mx <> mx' /\
  postprocess fuel (measured_line before x k y (Some (q, mn, mx)) ++ [nl]) (measured_line before x k y (Some (q, mn, mx')) ++ [nl]) =
  Ok (measured_line before x k y (Some (q, mn, mx')) ++ [nl]).
Proof.
  exists 100%nat, ⌜ "Slow " ⌝, ⌜ "1" ⌝, ⌜ "2" ⌝, ⌜ "4" ⌝, ⌜ "2" ⌝, ⌜ "2" ⌝, ⌜ "3" ⌝, ⌜ "4" ⌝. split; [|by vm_compute].
  plains.
Qed.
Print Assumptions C79_bounds_refuted.

(** Lines which do not mention a duration may differ: after one which does, or if the other text has none. *)
Theorem C79_lines_refuted : exists fuel l t r,
  nl ∉ t /\ nl ∉ r /\ ~ occurs phrase t /\ ~ occurs phrase r /\ t <> r /\
  postprocess fuel (l ++ nl :: t ++ [nl]) (l ++ nl :: r ++ [nl]) = Ok (l ++ nl :: r ++ [nl]).
Proof. exact other_lines. Qed.
Print Assumptions C79_lines_refuted.
Theorem C79_reference_refuted : exists fuel t r, occurs phrase t /\ ~ occurs phrase r /\ postprocess fuel t r = Ok r.
Proof. exact reference_without. Qed.
Print Assumptions C79_reference_refuted.

(** Numbers with negative exponents are not recognised: two measurements make a difference. *)
Theorem C79_exponents_refuted : exists fuel before x x' k y,
  postprocess fuel (measured_line before x k y None ++ [nl]) (measured_line before x' k y None ++ [nl]) = Ok (measured_line before x k y None ++ [nl]) /\
  x = ⌜ "1.2e-05" ⌝ /\ x' = ⌜ "1.3e-06" ⌝.
Proof. by exists 100%nat, ⌜ "Fast " ⌝, ⌜ "1.2e-05" ⌝, ⌜ "1.3e-06" ⌝, ⌜ "4" ⌝, ⌜ "0.1" ⌝. Qed.
Print Assumptions C79_exponents_refuted.
