(** Proofs about the prune files after repeated runs (C114). *)
From Coq Require Import Ascii NArith.
From stdpp Require Import list sets.
From Verif.Base Require Import Outcome Compare.
From Verif.Text Require Import Model.
From Verif.Prune Require Import Model Spec Proofs ModelRepeat SpecRepeat.
Local Open Scope res_scope.

Lemma coordinate_ok repo active l : forall f reps time gs, Forall2 (fun a g => attempt_files repo a = Ok g) l gs ->
  coordinate repo active f reps l time = aggregate repo active (fold_left (fun f a => stamped a f) l f) (reps ++ gs) time.
Proof.
  induction l as [|a l IH]; intros f reps time gs H; inversion H as [|? g ? gs' Ha Hl]; subst; cbn [coordinate fold_left].
  - by rewrite app_nil_r.
  - unfold perform. rewrite Ha. cbn [rbind fst snd]. rewrite (IH _ _ _ gs' Hl). by rewrite <- app_assoc.
Qed.

Lemma repeat_finished repo active l : forall f reps time, Forall finished l ->
  repeat_here repo active f reps l time = coordinate repo active f reps l time.
Proof.
  induction l as [|a l IH]; intros f reps time H; [done|]. apply Forall_cons in H as [Ha Hl].
  destruct a as [failed t|executed failed|]; cbn [repeat_here coordinate]; [| |done];
    (destruct (perform repo f reps _) as [d| | |]; cbn [rbind]; [by apply IH|done|done|done]).
Qed.

Lemma repeat_crashed repo active l l' : forall f reps time, Forall finished l -> Forall (proper_attempt repo) l -> repo <> [] ->
  repeat_here repo active f reps (l ++ Crashed :: l') time = Ok (fold_left (fun f a => stamped a f) l f).
Proof.
  induction l as [|a l IH]; intros f reps time H Hp Hr; [done|]. apply Forall_cons in H as [Ha Hl]. apply Forall_cons in Hp as [Hpa Hp].
  assert (exists g, attempt_files repo a = Ok g) as [g Hg].
  { destruct a as [failed t|executed failed|]; [| |by exists no_files].
    - destruct Hpa as [H1 H2]. destruct (update_all_spec repo no_files failed t Hr H1 H2) as (g & Hg & _). by exists g.
    - destruct (repetition_ok repo (executed, failed) Hr Hpa) as (g & Hg & _). by exists g. }
  destruct a as [failed t|executed failed|]; [| |done];
    cbn [app repeat_here fold_left]; unfold perform; rewrite Hg; cbn [rbind fst snd]; by apply IH.
Qed.

Lemma attempt_spec repo a : repo <> [] -> proper_attempt repo a ->
  exists g F, attempt_files repo a = Ok g /\ holds repo (failures g) F /\ (forall p, p ∈ F <-> failed_in a p) /\
    (of_selection a -> passes g <> None /\ exists P, holds repo (passes g) P) /\ (~ of_selection a -> passes g = None).
Proof.
  intros Hr Hp. destruct a as [failed time|executed failed|]; cbn [attempt_files].
  - destruct Hp as [H1 H2]. destruct (update_all_spec repo no_files failed time Hr H1 H2) as (g & Hg & HF & HP & _).
    exists g, (sort_by path_compare failed). split; [done|]. split; [done|]. split; [|done].
    intros p. cbn. by rewrite sort_by_perm.
  - destruct Hp as (H1 & H2 & H3 & H4).
    assert (Forall (good_path repo) failed) as H5 by (by eapply Forall_sub).
    destruct (update_filtered_spec repo no_files executed failed [] [] Hr (holds_none repo) (holds_none repo))
      as (g & F & P & Hg & _ & HF & HP & _ & H6 & H7); [set_solver|done|done|done|done|].
    exists g, F. split; [done|]. split; [done|]. split; [|split; [|done]].
    + intros p. rewrite H6. cbn. rewrite elem_of_nil. tauto.
    + intros _. split; [|by exists P]. unfold update_filtered in Hg. cbn in Hg.
      destruct (write_tests repo _) as [tf| | |]; cbn in Hg; [|done|done|done].
      destruct (write_tests repo _) as [tp| | |]; cbn in Hg; [|done|done|done]. by injection Hg as <-.
  - exists no_files, []. split; [done|]. split; [apply holds_none|]. split; [intros p; by rewrite elem_of_nil|]. done.
Qed.

Lemma attempts_spec repo l : repo <> [] -> Forall (proper_attempt repo) l ->
  exists gs Fs, Forall2 (fun a g => attempt_files repo a = Ok g) l gs /\ Forall2 (fun g F => holds repo (failures g) F) gs Fs /\
    Forall2 (fun a F => forall p, p ∈ F <-> failed_in a p) l Fs /\
    Forall2 (fun a g => (of_selection a -> passes g <> None /\ exists P, holds repo (passes g) P) /\ (~ of_selection a -> passes g = None)) l gs.
Proof.
  intros Hr. induction 1 as [|a l Ha Hl (gs & Fs & H1 & H2 & H3 & H4)]; [by exists [], []|].
  destruct (attempt_spec repo a Hr Ha) as (g & F & G1 & G2 & G3 & G4). exists (g :: gs), (F :: Fs).
  split; [by constructor|]. split; [by constructor|]. split; by constructor.
Qed.

Lemma selection_dec a : {of_selection a} + {~ of_selection a}.
Proof. destruct a; cbn; tauto. Qed.

Lemma aggregate_passes_none repo l gs :
  Forall2 (fun a g => (of_selection a -> passes g <> None /\ exists P, holds repo (passes g) P) /\ (~ of_selection a -> passes g = None)) l gs ->
  ~ Forall of_selection l -> aggregate_passes gs = Ok None.
Proof.
  intros H Hn.
  assert (exists g1 g g2, gs = g1 ++ g :: g2 /\ passes g = None /\
    Forall (fun r => exists s l, passes r = Some s /\ read_tests (Some s) [] = Ok l) g1) as (g1 & g & g2 & -> & Hg & H1).
  { induction H as [|a g l gs [Ha Hb] H IH]; [by destruct Hn|]. destruct (selection_dec a) as [Hs|Hs].
    - destruct IH as (g1 & g' & g2 & -> & Hg & H1). { intros Hl. apply Hn. by constructor. }
      exists (g :: g1), g', g2. split; [done|]. split; [done|]. constructor; [|done].
      destruct (Ha Hs) as [H2 (P & H3 & _)]. destruct (passes g) as [s|]; [|done]. exists s, P. split; [done|]. apply (H3 []).
    - exists [], g, gs. split; [done|]. split; [by apply Hb|constructor]. }
  by apply aggregate_none.
Qed.

Lemma coordinate_whole repo active f l time : repo <> [] -> Forall (proper_attempt repo) l ->
  active = true \/ ~ Forall of_selection l ->
  exists f', coordinate repo active f [] l time = Ok f' /\ records (failures f') (fun p => exists a, a ∈ l /\ failed_in a p) /\
    passes f' = None /\ stamp f' = Some time.
Proof.
  intros Hr Hp Hw. destruct (attempts_spec repo l Hr Hp) as (gs & Fs & H1 & H2 & H3 & H4).
  rewrite (coordinate_ok repo active l f [] time gs H1). cbn [app].
  destruct (aggregate_failures_spec repo gs Fs Hr H2) as (k & Hk & Hs & Hg & Hin).
  destruct (update_all_spec repo (fold_left (fun f a => stamped a f) l f) k time Hr (psorted_NoDup k Hs) Hg) as (f' & Hf & HF & HP & Ht).
  exists f'. split; [|split; [|done]].
  - unfold aggregate. rewrite Hk. cbn [rbind]. destruct active; [done|]. destruct Hw as [|Hw]; [done|].
    rewrite (aggregate_passes_none repo l gs H4 Hw). done.
  - eapply holds_records; [done|]. intros p. rewrite sort_by_perm, Hin. clear -H3. induction H3 as [|a F l Fs Ha H IH].
    + split; [intros (F & HF & _)|intros (a & Ha & _)]; by apply elem_of_nil in HF || apply elem_of_nil in Ha.
    + setoid_rewrite elem_of_cons. split.
      * intros (G & [->|HG] & Hp); [exists a; split; [by left|by apply Ha]|]. destruct (proj1 IH) as (b & Hb & Hf); [by exists G|]. exists b. tauto.
      * intros (b & [->|Hb] & Hf); [exists F; split; [by left|by apply Ha]|]. destruct (proj2 IH) as (G & HG & Hp); [by exists b|]. exists G. tauto.
Qed.

Lemma coordinate_selected repo h f l time : repo <> [] -> l <> [] -> Forall (proper repo) h -> history repo h = Ok f ->
  Forall (proper_attempt repo) l -> Forall of_selection l ->
  exists f', coordinate repo false f [] l time = Ok f' /\ stamp f' = stamp f /\
    records (failures f') (fun p => (exists a, a ∈ l /\ failed_in a p) \/
      (failing h p /\ (forall a, a ∈ l -> ~ failed_in a p) /\ exists a, a ∈ l /\ ~ executed_in a p)) /\
    records (passes f') (fun p => (forall a, a ∈ l -> ~ failed_in a p) /\ (passing h p \/ forall a, a ∈ l -> executed_in a p)).
Proof.
  intros Hr Hne Hh Hf Hp Hs.
  assert (exists rs, l = map (fun r => FinishedSome r.1 r.2) rs) as [rs ->].
  { clear -Hs. induction Hs as [|a l Ha Hl [rs ->]]; [by exists []|]. destruct a as [| |]; [done| |done]. by exists ((executed, failed) :: rs). }
  assert (Hp' : Forall (fun r => proper repo (Some_ (fst r) (snd r))) rs).
  { rewrite Forall_map in Hp. eapply Forall_impl; [exact Hp|done]. }
  assert (exists gs, Forall2 (fun r g => repetition repo r = Ok g) rs gs) as [gs Hgs].
  { clear -Hp' Hr. induction Hp' as [|r rs H _ [gs IH]]; [by exists []|]. destruct (repetition_ok repo r Hr H) as (g & Hg & _). exists (g :: gs). by constructor. }
  assert (Hgs' : Forall2 (fun a g => attempt_files repo a = Ok g) (map (fun r => FinishedSome r.1 r.2) rs) gs) by (by apply Forall2_fmap_l).
  rewrite (coordinate_ok repo false _ f [] time gs Hgs'). cbn [app].
  assert (Hst : fold_left (fun f a => stamped a f) (map (fun r => FinishedSome r.1 r.2) rs) f = f).
  { clear. induction rs as [|r rs IH]; [done|]. exact IH. }
  rewrite Hst. destruct (aggregate_history repo h f rs gs time Hr) as (f' & Hf' & (F & F1 & F2 & F3) & (P & P1 & P2 & P3)); [by destruct rs|done|done|done|done|].
  exists f'. split; [done|]. split; [|split].
  - unfold aggregate in Hf'. destruct (aggregate_failures gs) as [failing| | |]; cbn [rbind] in Hf'; [|done|done|done].
    assert (Hno : exists ps, aggregate_passes gs = Ok (Some ps)).
    { assert (exists Ps, Forall2 (fun r P => passes r <> None /\ holds repo (passes r) P) gs Ps) as [Ps HPs].
      { clear -Hgs Hp' Hr. induction Hgs as [|r g rs gs Hg Hgs IH]; [by exists []|]. apply Forall_cons in Hp' as [Hp Hp'].
        destruct (IH Hp') as [Ps HPs]. destruct (attempt_spec repo (FinishedSome r.1 r.2) Hr Hp) as (g' & F & G1 & _ & _ & G2 & _).
        change (repetition repo r = Ok g') in G1. rewrite Hg in G1. injection G1 as <-. destruct (G2 I) as [G3 [P HP]]. exists (P :: Ps). by constructor. }
      destruct (aggregate_passes_spec repo gs Ps) as (ps & -> & _); [|done|by exists ps]. inversion Hgs; subst; done. }
    destruct Hno as [ps Hps]. rewrite Hps in Hf'. cbn [rbind] in Hf'. unfold update_filtered in Hf'.
    destruct (read_tests (passes f) []) as [?| | |]; cbn [rbind] in Hf'; [|done|done|done].
    destruct (read_tests (failures f) []) as [?| | |]; cbn [rbind] in Hf'; [|done|done|done].
    destruct (write_tests repo _) as [?| | |]; cbn [rbind] in Hf'; [|done|done|done].
    destruct (write_tests repo _) as [?| | |]; cbn [rbind] in Hf'; [|done|done|done]. by injection Hf' as <-.
  - exists F. split; [done|]. split; [done|]. intros p. rewrite F3. setoid_rewrite elem_of_list_fmap. split.
    + intros [(r & H1 & H2)|(H1 & H2 & r & H3 & H4)].
      * left. exists (FinishedSome r.1 r.2). split; [by exists r|done].
      * right. split; [done|]. split; [intros a (r' & -> & Hr'); by apply H2|]. exists (FinishedSome r.1 r.2). split; [by exists r|done].
    + intros [(a & (r & -> & H1) & H2)|(H1 & H2 & a & (r & -> & H3) & H4)].
      * left. by exists r.
      * right. split; [done|]. split; [intros r' Hr'; apply (H2 (FinishedSome r'.1 r'.2)); by exists r'|]. by exists r.
  - exists P. split; [done|]. split; [done|]. intros p. rewrite P3. setoid_rewrite elem_of_list_fmap. split.
    + intros [H1 H2]. split; [intros a (r' & -> & Hr'); by apply H1|]. destruct H2 as [H2|H2]; [by left|right]. intros a (r' & -> & Hr'). by apply H2.
    + intros [H1 H2]. split; [intros r' Hr'; apply (H1 (FinishedSome r'.1 r'.2)); by exists r'|]. destruct H2 as [H2|H2]; [by left|right].
      intros r' Hr'. apply (H2 (FinishedSome r'.1 r'.2)). by exists r'.
Qed.

Lemma coordinate_recorded repo active h f l time : repo <> [] -> l <> [] -> Forall (proper repo) h -> history repo h = Ok f ->
  Forall (proper_attempt repo) l ->
  exists f' F, coordinate repo active f [] l time = Ok f' /\ read_tests (failures f') [] = Ok F /\
    forall a p, a ∈ l -> failed_in a p -> p ∈ F.
Proof.
  intros Hr Hne Hh Hf Hp. destruct (decide (active = true)) as [Ha|Ha].
  - destruct (coordinate_whole repo active f l time Hr Hp (or_introl Ha)) as (f' & H1 & (F & H2 & _ & H3) & _).
    exists f', F. split; [done|]. split; [done|]. intros a p Hin Hfl. apply H3. by exists a.
  - destruct active; [done|]. destruct (List.Forall_dec of_selection selection_dec l) as [Hs|Hs].
    + destruct (coordinate_selected repo h f l time Hr Hne Hh Hf Hp Hs) as (f' & H1 & _ & (F & H2 & _ & H3) & _).
      exists f', F. split; [done|]. split; [done|]. intros a p Hin Hfl. apply H3. left. by exists a.
    + rename Hs into Hn.
      destruct (coordinate_whole repo false f l time Hr Hp (or_intror Hn)) as (f' & H1 & (F & H2 & _ & H3) & _).
      exists f', F. split; [done|]. split; [done|]. intros a p Hin Hfl. apply H3. by exists a.
Qed.

Lemma stamped_all l : forall f, let f' := fold_left (fun f a => stamped a f) l f in
  failures f' = failures f /\ passes f' = passes f /\ (Forall of_selection l -> stamp f' = stamp f).
Proof.
  induction l as [|a l IH]; intros f; [done|]. cbn [fold_left]. destruct (IH (stamped a f)) as (H1 & H2 & H3). cbn zeta.
  rewrite H1, H2. destruct a as [failed t|executed failed|]; cbn [stamped failures passes];
    (split; [done|]; split; [done|]; intros H; apply Forall_cons in H as [Ha Hl]; (done || by apply H3)).
Qed.

Lemma repeat_interrupted repo active l l' f reps time : Forall finished l -> Forall (proper_attempt repo) l -> repo <> [] ->
  exists f', repeat_here repo active f reps (l ++ Crashed :: l') time = Ok f' /\ failures f' = failures f /\ passes f' = passes f /\
    (Forall of_selection l -> stamp f' = stamp f).
Proof.
  intros H Hp Hr. exists (fold_left (fun f a => stamped a f) l f). split; [by apply repeat_crashed|]. apply stamped_all.
Qed.
