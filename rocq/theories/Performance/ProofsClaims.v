(** The claims put together (C78, C79). *)
From Coq Require Import Ascii String QArith Qcanon Lia Permutation.
From stdpp Require Import list sorting.
From Verif.Base Require Import Outcome Compare.
From Verif.Text Require Import Model Spec Proofs.
From Verif.Stats Require Model Spec Proofs.
From Verif.Log Require Model Spec Proofs ProofsText.
From Verif.Performance Require Import Model Spec ProofsNumbers ProofsCourse ProofsText.
Local Notation "⌜ s ⌝" := (list_ascii_of_string s%string).

Section checks.
  Context (root : Qc -> Qc) (show : Qc -> text) (coin : list task -> bool) (clock : list task -> task -> Qc).

  Lemma check_course md description a : valid a ->
    exists k f s h, course root coin clock md a k f s 1 [] h /\
      check_relative_performance root show coin clock md description a =
      Ok (h, verdict a f s, Log.Model.Scope (message show description a f s)
            (Log.Model.PerfCheck :: if verdict a f s then [] else [Log.Model.PerfFail []])) /\
      forall k' f' s' h', course root coin clock md a k' f' s' 1 [] h' -> k' = k /\ f' = f /\ s' = s /\ h' = h.
  Proof.
    intros Hv. destruct (check_spec root show coin clock md description a Hv) as (k & f & s & h & Hc & _ & E).
    exists k, f, s, h. split; [done|]. split; [done|]. intros k' f' s' h' Hc'.
    apply (course_unique root coin clock md a k' k f' s' f s 1 []); [done|lia|done|done].
  Qed.

  Lemma check_runs md description a h passed e :
    check_relative_performance root show coin clock md description a = Ok (h, passed, e) ->
    exists k, 1 <= k <= max_attempts a /\ List.length h = trials a * k * (k + 1) /\
      (hoped md passed = true \/ k = max_attempts a).
  Proof.
    intros E.
    assert (Hv : valid a).
    { unfold check_relative_performance in E.
      destruct (Qc_leb (min_speed_up a) 1) eqn:E1; [done|]. destruct (Qc_leb (max_speed_up a) 1) eqn:E2; [done|]. cbn [orb] in E.
      destruct (Qc_ltb (max_speed_up a) (min_speed_up a)) eqn:E3; [done|]. destruct (Qc_leb (num_sds a) 1) eqn:E4; [done|].
      destruct (max_attempts a =? 0)%nat eqn:E5; [done|]. destruct (trials a <? 5)%nat eqn:E6; [done|].
      apply Qc_leb_false in E1, E4. apply Qc_ltb_false in E3. apply Nat.eqb_neq in E5. apply Nat.ltb_ge in E6.
      repeat split; try done. lia. }
    destruct (check_spec root show coin clock md description a Hv) as (k & f & s & h' & Hc & Hk & E').
    rewrite E in E'. injection E' as -> -> ->. exists k. split; [done|].
    destruct (course_length root coin clock md a k f s 1 [] h' ltac:(lia) Hc) as [_ Hl]. cbn [List.length] in Hl. split; [lia|].
    by apply (course_end root coin clock md a k f s 1 [] h').
  Qed.

  Lemma check_logged md description a h passed e : check_relative_performance root show coin clock md description a = Ok (h, passed, e) ->
    exists msg es, e = Log.Model.Scope msg es /\ forall nm delta, exists st, Log.Model.run_test md [(msg, es)] = Ok st /\
      Log.Spec.counters (Log.Model.summarize nm (Log.Model.res_of st) md delta) = expected_counters md passed.
  Proof.
    intros E. destruct (decide (valid a)) as [Hv|Hv].
    - destruct (check_spec root show coin clock md description a Hv) as (k & f & s & h' & Hc & Hk & E').
      rewrite E in E'. injection E' as -> -> ->. eexists _, _. split; [reflexivity|]. intros nm delta. apply logged_counters.
    - by rewrite (not_valid_throws root show coin clock md description a Hv) in E.
  Qed.
End checks.

(** ** Texts *)

Lemma postprocess_ok fuel t r : List.length t < fuel -> exists x, postprocess fuel t r = Ok x /\ (x = t \/ x = r) /\ (t = r -> x = t).
Proof.
  intros Hl. destruct (amm_total fuel t r Hl) as [b E]. unfold postprocess. rewrite E. cbn [rbind].
  exists (if b then r else t). split; [done|]. destruct b; split; auto.
Qed.

Lemma postprocess_sound fuel t r : postprocess fuel t r = Ok r -> t <> r ->
  List.length (lines t) = List.length (lines r) /\
  forall i l l', lines t !! i = Some l -> lines r !! i = Some l' -> l <> l' ->
    exists j l0, j <= i /\ lines t !! j = Some l0 /\ occurs phrase l0.
Proof.
  intros H Hn. apply aligned_lines. apply (amm_aligned fuel). unfold postprocess in H.
  destruct (acceptable_mismatch fuel t r) as [[]| | |]; cbn [rbind] in H; congruence.
Qed.

Lemma postprocess_complete fuel p ls ls' rest : Forall2 same_but_measured ls ls' -> List.length (p ++ ended ls ++ rest) < fuel ->
  postprocess fuel (p ++ ended ls ++ rest) (p ++ ended ls' ++ rest) = Ok (p ++ ended ls' ++ rest).
Proof. intros H Hl. unfold postprocess. by rewrite (accepts_same ls ls' H fuel p rest Hl). Qed.

Lemma fast_line_eq show a f : fast_line show a f = measured_line ⌜ "Fast " ⌝ (show (mean_of f)) (show (num_sds a)) (show (sd_of f)) None.
Proof. unfold fast_line, measured_line. rewrite app_nil_r. done. Qed.
Lemma slow_line_eq show a f s : slow_line show a f s =
  measured_line ⌜ "Slow " ⌝ (show (mean_of s)) (show (num_sds a)) (show (sd_of s))
    (Some (show (mean_of s / mean_of f)%Qc, show (min_speed_up a), show (max_speed_up a))).
Proof. done. Qed.

Lemma message_lines show d a f s rest :
  message show d a f s ++ nl :: rest = (if decide (d = []) then [] else d ++ [nl]) ++ ended [fast_line show a f; slow_line show a f s] ++ rest.
Proof. unfold message. rewrite !ended_cons. unfold ended. cbn [map concat]. rewrite <- !app_assoc. cbn [app]. rewrite <- !app_assoc. done. Qed.

Lemma postprocess_messages fuel show before d a f s f' s' rest :
  Forall (fun x => plain (show x)) [mean_of f; sd_of f; mean_of s; sd_of s; (mean_of s / mean_of f)%Qc;
    mean_of f'; sd_of f'; mean_of s'; sd_of s'; (mean_of s' / mean_of f')%Qc; num_sds a; min_speed_up a; max_speed_up a] ->
  List.length (before ++ message show d a f s ++ nl :: rest) < fuel ->
  postprocess fuel (before ++ message show d a f s ++ nl :: rest) (before ++ message show d a f' s' ++ nl :: rest) =
  Ok (before ++ message show d a f' s' ++ nl :: rest).
Proof.
  intros HF Hl. repeat (apply Forall_cons in HF as [? HF]). rewrite !message_lines in *.
  set (D := if decide (d = []) then [] else d ++ [nl]) in *.
  assert (E : forall e : text, before ++ D ++ e ++ rest = (before ++ D) ++ e ++ rest) by (intros e; by rewrite <- !app_assoc).
  rewrite !E in *. apply postprocess_complete; [|done]. rewrite !fast_line_eq, !slow_line_eq.
  apply Forall2_cons_2; [|apply Forall2_cons_2; [|apply Forall2_nil_2]].
  - apply measured_short; try done. apply (bool_decide_unpack _). by vm_compute.
  - apply measured_long; try done. apply (bool_decide_unpack _). by vm_compute.
Qed.

(** Predictions which differ are noticed if a measurement in front of them differs. *)
Lemma postprocess_notices fuel p before x x' k k' y y' q q' mn mx mn' mx' t' r' :
  Forall plain [x; x'; k; k'; y; y'; q; q'; mn; mx; mn'; mx'] ->
  (x <> x' /\ (k <> k' \/ mn ++ ⌜ ", " ⌝ ++ mx <> mn' ++ ⌜ ", " ⌝ ++ mx')) \/
  (x = x' /\ k = k' /\ (y <> y' \/ q <> q') /\ mn ++ ⌜ ", " ⌝ ++ mx <> mn' ++ ⌜ ", " ⌝ ++ mx') ->
  0 < fuel ->
  postprocess fuel (p ++ measured_line before x k y (Some (q, mn, mx)) ++ nl :: t') (p ++ measured_line before x' k' y' (Some (q', mn', mx')) ++ nl :: r') =
  Ok (p ++ measured_line before x k y (Some (q, mn, mx)) ++ nl :: t').
Proof.
  intros HF Hd Hf. repeat (apply Forall_cons in HF as [? HF]). destruct fuel as [|fuel]; [lia|]. unfold postprocess.
  destruct Hd as [(Hx & Hd)|(<- & <- & Hyq & Hd)].
  - rewrite x_differs by done. cbn [same_bounds]. destruct Hd as [Hd|Hd].
    + rewrite (bool_decide_false (k = k')) by done. done.
    + rewrite (bool_decide_false (_ = _ ++ _ ++ _)) by done. by rewrite andb_false_r.
  - destruct (decide (y = y')) as [<-|Hy].
    + destruct Hyq as [?|Hq]; [done|]. rewrite q_differs by done. cbn [same_bounds]. by rewrite (bool_decide_false (_ = _ ++ _ ++ _)).
    + rewrite y_differs by done. cbn [same_bounds]. by rewrite (bool_decide_false (_ = _ ++ _ ++ _)).
Qed.

Lemma diagnostics_cases fuel output file : List.length output < fuel ->
  diagnostics_to_use fuel Log.Model.Standard output file = Ok output /\
  (forall md, md <> Log.Model.Standard ->
    diagnostics_to_use fuel md output (Some None) = Throw RuntimeError /\
    (output <> [] -> diagnostics_to_use fuel md output None = Ok output) /\
    (forall c, diagnostics_to_use fuel md output (Some (Some c)) = postprocess fuel output c)).
Proof.
  intros Hl. split; [done|]. intros md Hmd. split; [by destruct md|]. split; [|by intros c; destruct md].
  intros Ho. assert (E : postprocess fuel output [] = Ok output).
  { destruct fuel as [|fuel]; [lia|]. unfold postprocess. cbn [acceptable_mismatch].
    replace (common output []) with 0 by (by destruct output). cbn [List.length]. rewrite Nat.ltb_irrefl, andb_false_r. cbn [andb rbind].
    destruct output; [done|]. done. }
  by destruct md.
Qed.

Lemma find_none_occurs s l : find_first s l = None -> ~ occurs s l.
Proof. intros H. by apply find_first_None. Qed.

Lemma other_lines : exists fuel l t r,
  nl ∉ t /\ nl ∉ r /\ ~ occurs phrase t /\ ~ occurs phrase r /\ t <> r /\
  postprocess fuel (l ++ nl :: t ++ [nl]) (l ++ nl :: r ++ [nl]) = Ok (l ++ nl :: r ++ [nl]).
Proof.
  exists 100, ⌜ "Fast Task duration: 1s" ⌝, ⌜ "expected 3" ⌝, ⌜ "expected 4" ⌝.
  split; [apply (bool_decide_unpack _); by vm_compute|]. split; [apply (bool_decide_unpack _); by vm_compute|].
  split; [apply find_none_occurs; by vm_compute|]. split; [apply find_none_occurs; by vm_compute|]. by vm_compute.
Qed.

Lemma reference_without : exists fuel t r, occurs phrase t /\ ~ occurs phrase r /\ postprocess fuel t r = Ok r.
Proof.
  exists 100, (⌜ "Fast Task duration: 1s" ⌝ ++ [nl]), (⌜ "Fast Task duration missing" ⌝ ++ [nl]).
  split; [exists 5, ⌜ "Fast " ⌝, (⌜ " 1s" ⌝ ++ [nl]); by split|]. split; [apply find_none_occurs; by vm_compute|]. by vm_compute.
Qed.

Local Open Scope Qc_scope.
Lemma scaled root c a data data' f s : 0 < c -> (forall x, root (c * c * x) = c * root x) ->
  statistics root data f -> statistics root data' s ->
  statistics root (map (Qcmult c) data) (scale c f) /\ statistics root (map (Qcmult c) data') (scale c s) /\
  verdict a (scale c f) (scale c s) = verdict a f s.
Proof. intros Hc Hr Hf Hs. split; [by apply statistics_scale|]. split; [by apply statistics_scale|]. by apply verdict_scale. Qed.

Lemma constant root coin a tf ts md k f s h : valid a -> root 0 = 0 -> 0 < tf ->
  course root coin (fun _ t => match t with Fast => tf | Slow => ts end) md a k f s 1 [] h ->
  f = Stats tf 0 /\ s = Stats ts 0 /\ verdict a f s = exactly a tf ts /\
  k = if hoped md (exactly a tf ts) then 1%nat else max_attempts a.
Proof.
  intros Hv Hr Ht Hc. assert (Hm : (0 < max_attempts a)%nat) by (by destruct Hv as (_ & _ & _ & ? & _)).
  destruct (course_constant root coin tf ts md a k f s 1 [] h Hv Hr Ht ltac:(lia) Hc) as (-> & -> & E).
  split; [done|]. split; [done|]. split; [by apply verdict_constant|done].
Qed.

Lemma documentation_wrong : exists root coin clock a k f s h,
  min_speed_up a = max_speed_up a /\ valid a /\ course root coin clock Log.Model.Standard a k f s 1 [] h /\
  mean_of f + sd_of f < mean_of s + sd_of s /\ verdict a f s = true.
Proof.
  set (a := Args (Q2Qc 2) (Q2Qc 2) 5 (Q2Qc 4) 1).
  assert (Hv : valid a) by (repeat split; try done; cbn; lia).
  set (clock := fun (_ : list task) t => match t with Fast => Q2Qc 1 | Slow => Q2Qc 2 end).
  destruct (check_course (fun x => x) (fun _ => []) (fun _ => true) clock Log.Model.Standard [] a Hv) as (k & f & s & h & Hc & _).
  exists (fun x => x), (fun _ => true), clock, a, k, f, s, h. split; [done|]. split; [done|]. split; [done|].
  destruct (constant (fun x => x) (fun _ => true) a (Q2Qc 1) (Q2Qc 2) Log.Model.Standard k f s h Hv eq_refl eq_refl Hc) as (-> & -> & E & _).
  split; [by vm_compute|]. rewrite E. by vm_compute.
Qed.

(** What tests do: three attempts. *)
Lemma member_runs root show coin clock md description minS maxS tr sds h passed e :
  check_relative_performance root show coin clock md description (extender_arguments minS maxS tr sds) = Ok (h, passed, e) ->
  exists k, (k = 1 \/ k = 2 \/ k = 3)%nat /\ List.length h = (tr * k * (k + 1))%nat /\ (hoped md passed = false -> k = 3%nat).
Proof.
  intros H. apply check_runs in H as (k & Hk & Hl & Ho). cbn in Hk, Hl, Ho. exists k. split; [lia|]. split; [done|].
  intros Hp. destruct Ho as [Ho|Ho]; [congruence|done].
Qed.
