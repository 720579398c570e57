(** Proofs about the materials of tests: suites. *)
From Coq Require Import Ascii String.
From stdpp Require Import list gmap strings.
From Verif.Base Require Import Outcome Order ListLemmas.
From Verif.Text Require Import Model.
From Verif.Materials Require Import Model Spec Proofs.
Local Open Scope res_scope.
Local Notation "⌜ s ⌝" := (list_ascii_of_string s%string).

Lemma prefix_app_cancel {A} (t p q : list A) : (t ++ p) `prefix_of` (t ++ q) -> p `prefix_of` q.
Proof. intros [k H]. rewrite <-app_assoc in H. apply app_inv_head in H. by exists k. Qed.

Lemma provided_same d0 m d d' t : (forall r, d' !! (t ++ r) = d !! (t ++ r)) -> provided d0 m d t -> provided d0 m d' t.
Proof.
  intros H. assert (forall p r, d' !! ((t ++ p) ++ r) = d !! ((t ++ p) ++ r)) as H' by (intros p r; by rewrite <-app_assoc, H).
  pose proof (H []) as H0. rewrite app_nil_r in H0. unfold provided, mirrored, nothing.
  destruct (d0 !! m); [|done]. destruct (d0 !! (m ++ [⌜"Prediction"⌝])).
  - intros (A&B&C&D). split; [by rewrite H0|]. split; [|split].
    + destruct (d0 !! (m ++ [⌜"WorkingCopy"⌝])); intros r; [by rewrite H'|by rewrite H].
    + destruct (d0 !! (m ++ [⌜"Auxiliary"⌝])); intros r; by rewrite H'.
    + intros n H1 H2 r. rewrite H'. by apply D.
  - intros A r. by rewrite H.
Qed.

Section suites.
  Context (M T : path) (HMT : disjoint_paths M T) (HT : T <> []).
  Context (d0 : disk) (all : list path) (Hall : side_by_side all).
  Context (Hm : forall rel, rel ∈ all -> d0 !! (M ++ rel) = None \/ d0 !! (M ++ rel) = Some Folder).

  Definition good (d : disk) : Prop :=
    same_materials M d0 d /\ only_below T d0 d /\ (forall rel, rel ∈ all -> way_free d (T ++ rel)).

  Lemma working_same d rel : same_materials M d0 d -> working M T d rel = working M T d0 rel.
  Proof using. intros H. unfold working. by rewrite (same_predicts M d0 d rel H). Qed.

  Lemma working_inj rel rel' : rel ∈ all -> rel' ∈ all -> working M T d0 rel = working M T d0 rel' -> rel = rel'.
  Proof using Hall.
    intros H1 H2 H. destruct (working_rel M T d0 rel) as [r E], (working_rel M T d0 rel') as [r' E']. rewrite E, E' in H.
    rewrite <-!app_assoc in H. apply app_inv_head in H.
    destruct (prefix_weak_total rel rel' (rel ++ r)) as [Hp|Hp]; [by exists r|by exists r'|by apply Hall|].
    symmetry. by apply Hall.
  Qed.

  Lemma only_below_keeps d d' rel rel' r : rel ∈ all -> rel' ∈ all -> rel <> rel' -> only_below (T ++ rel) d d' ->
    d' !! ((T ++ rel') ++ r) = d !! ((T ++ rel') ++ r).
  Proof using Hall.
    intros H1 H2 Hne Ho. rewrite <-app_assoc. destruct (Ho (T ++ rel' ++ r)) as [?|(_&_&H)]; [|done|].
    - intros H. apply prefix_app_cancel in H. destruct (prefix_weak_total rel rel' (rel' ++ r)) as [Hp|Hp]; [done|by exists r| |].
      + by apply Hne, Hall.
      + apply Hne. symmetry. by apply Hall.
    - exfalso. apply prefix_app_cancel in H. apply Hne. symmetry. apply Hall; [done|done|]. etrans; [|exact H]. by exists r.
  Qed.

  Lemma set_one d paths rel : rel ∈ all -> good d -> exists d' paths', set_materials M T d paths rel = Ok (d', paths') /\ good d' /\
    (forall rel', rel' ∈ all -> provided d0 (M ++ rel') d (T ++ rel') -> provided d0 (M ++ rel') d' (T ++ rel')) /\
    ((working M T d0 rel ∈ paths -> provided d0 (M ++ rel) d (T ++ rel)) -> provided d0 (M ++ rel) d' (T ++ rel)) /\
    (forall w, w ∈ paths' -> w ∈ paths \/ w = working M T d0 rel).
  Proof using HMT HT Hall Hm.
    intros Hrel (Hs&Ho&Hw).
    destruct (set_materials_spec M T HMT HT d paths rel) as (d'&paths'&E&A&B&C&D).
    - rewrite Hs. by apply Hm.
    - by apply Hw.
    - rewrite working_same in C, D by done. exists d', paths'. split; [done|]. split; [|split; [|split]].
      + split; [|split].
        * intros r. rewrite B. apply Hs.
        * intros q Hq. assert (~ (T ++ rel) `prefix_of` q) as Hq' by (intros H; apply Hq; etrans; [by exists rel|exact H]).
          destruct (A q Hq') as [->|(H1&H2&H3)]; [by apply Ho|].
          assert (q `prefix_of` T) as H4 by (destruct (prefix_weak_total T q (T ++ rel)) as [?|?]; [by exists rel|done|done|done]).
          destruct (Ho q Hq) as [H5|(H5&H6&_)]; [right; split; [congruence|done]|congruence].
        * intros rel' Hrel' q c Hq Hne. destruct (decide ((T ++ rel) `prefix_of` q)) as [Hp|Hp].
          -- exfalso. assert (rel `prefix_of` rel') as Hr by (apply (prefix_app_cancel T); etrans; [exact Hp|exact Hq]).
             apply Hall in Hr; [|done|done]. subst rel'. apply Hne. by apply (anti_symm prefix).
          -- destruct (A q Hp) as [->|(_&->&_)]; [by eapply Hw|done].
      + intros rel' Hrel' Hp. destruct (decide (rel' = rel)) as [->|Hne].
        * destruct (decide (d !! (M ++ rel) = None)) as [Hn|Hn]; [by destruct D as [-> _]; [by left|]|].
          destruct (decide (working M T d0 rel ∈ paths)) as [Hin|Hnin]; [by destruct D as [-> _]; [by right|]|].
          destruct C as [C _]; [done|done|]. by apply (same_provided M d0 d).
        * eapply provided_same; [|exact Hp]. intros r. by apply (only_below_keeps d d' rel rel').
      + intros Hp. destruct (decide (d !! (M ++ rel) = None)) as [Hn|Hn].
        * destruct D as [-> _]; [by left|]. rewrite Hs in Hn. unfold provided. by rewrite Hn.
        * destruct (decide (working M T d0 rel ∈ paths)) as [Hin|Hnin]; [destruct D as [-> _]; [by right|]; by apply Hp|].
          destruct C as [C _]; [done|done|]. by apply (same_provided M d0 d).
      + intros w Hin. destruct (decide (d !! (M ++ rel) = None)) as [Hn|Hn]; [destruct D as [_ ->]; [by left|]; by left|].
        destruct (decide (working M T d0 rel ∈ paths)) as [Hin'|Hnin]; [destruct D as [_ ->]; [by right|]; by left|].
        destruct C as [_ ->]; [done|done|]. apply elem_of_app in Hin as [?|Hin]; [by left|]. apply elem_of_list_singleton in Hin. by right.
  Qed.

  Lemma set_suite_spec rels : forall d paths, (forall rel, rel ∈ rels -> rel ∈ all) -> good d ->
    (forall rel, rel ∈ all -> working M T d0 rel ∈ paths -> provided d0 (M ++ rel) d (T ++ rel)) ->
    exists d' paths', set_suite M T d paths rels = Ok (d', paths') /\ good d' /\
      (forall rel, rel ∈ all -> provided d0 (M ++ rel) d (T ++ rel) \/ rel ∈ rels -> provided d0 (M ++ rel) d' (T ++ rel)).
  Proof using HMT HT Hall Hm.
    induction rels as [|rel rels IH]; intros d paths Hin Hg Hp.
    - exists d, paths. split; [done|]. split; [done|]. intros rel _ [?|H]; [done|]. by apply elem_of_nil in H.
    - assert (rel ∈ all) as Hrel by (apply Hin; by left).
      destruct (set_one d paths rel Hrel Hg) as (d1&paths1&E1&G1&K1&P1&W1). cbn [set_suite]. rewrite E1. cbn [rbind].
      specialize (P1 (Hp rel Hrel)).
      destruct (IH d1 paths1) as (d2&paths2&E2&G2&P2).
      + intros rel' H. apply Hin. by right.
      + done.
      + intros rel' H1 H2. apply W1 in H2 as [H2|H2]; [apply K1; [done|by apply Hp]|]. apply working_inj in H2; [|done|done]. by subst rel'.
      + exists d2, paths2. split; [done|]. split; [done|]. intros rel' H1 H2. apply P2; [done|].
        destruct H2 as [H2|H2]; [left; by apply K1|]. apply elem_of_cons in H2 as [->|H2]; [by left|by right].
  Qed.

  Lemma set_suites_spec suites : forall d, (forall rel, rel ∈ concat suites -> rel ∈ all) -> good d ->
    exists d', set_suites M T d suites = Ok d' /\ good d' /\
      (forall rel, rel ∈ all -> provided d0 (M ++ rel) d (T ++ rel) \/ rel ∈ concat suites -> provided d0 (M ++ rel) d' (T ++ rel)).
  Proof using HMT HT Hall Hm.
    induction suites as [|s suites IH]; intros d Hin Hg.
    - exists d. split; [done|]. split; [done|]. intros rel _ [?|H]; [done|]. by apply elem_of_nil in H.
    - cbn [set_suites concat] in *. destruct (set_suite_spec s d []) as (d1&paths1&E1&G1&P1).
      + intros rel H. apply Hin. apply elem_of_app. by left.
      + done.
      + intros rel _ H. by apply elem_of_nil in H.
      + rewrite E1. cbn [rbind]. destruct (IH d1) as (d2&E2&G2&P2); [intros rel H; apply Hin; apply elem_of_app; by right|done|].
        exists d2. split; [done|]. split; [done|]. intros rel H1 H2. apply P2; [done|].
        destruct H2 as [H2|H2]; [left; apply P1; [done|by left]|]. apply elem_of_app in H2 as [H2|H2]; [left; apply P1; [done|by right]|by right].
  Qed.
End suites.

Theorem suites_provided M T d suites : disjoint_paths M T -> T <> [] -> side_by_side (concat suites) ->
  (forall rel, rel ∈ concat suites -> d !! (M ++ rel) = None \/ d !! (M ++ rel) = Some Folder) ->
  (forall rel, rel ∈ concat suites -> way_free d (T ++ rel)) ->
  exists d', set_suites M T d suites = Ok d' /\ only_below T d d' /\
    (forall rel, rel ∈ concat suites -> provided d (M ++ rel) d' (T ++ rel)).
Proof.
  intros HMT HT Hall Hm Hw.
  destruct (set_suites_spec M T HMT HT d (concat suites) Hall Hm suites d) as (d'&E&(_&G&_)&P); [done| |].
  - split; [done|]. split; [by left|done].
  - exists d'. split; [done|]. split; [done|]. intros rel H. apply P; [done|by right].
Qed.

(** A second round, after the tests have done what they like with their working copies *)
Theorem reset_provided M T d d1 rels : disjoint_paths M T -> T <> [] -> side_by_side rels ->
  (forall rel, rel ∈ rels -> d !! (M ++ rel) = None \/ d !! (M ++ rel) = Some Folder) ->
  (forall rel, rel ∈ rels -> way_free d1 (T ++ rel)) ->
  (forall r, d1 !! (M ++ r) = d !! (M ++ r)) ->
  exists d' paths, set_suite M T d1 [] rels = Ok (d', paths) /\ only_below T d1 d' /\
    (forall rel, rel ∈ rels -> provided d (M ++ rel) d' (T ++ rel)).
Proof.
  intros HMT HT Hall Hm Hw Hs.
  destruct (set_suite_spec M T HMT HT d1 rels Hall) with (rels := rels) (d := d1) (paths := @nil path) as (d'&paths&E&(_&G&_)&P).
  - intros rel H. rewrite Hs. by apply Hm.
  - done.
  - split; [done|]. split; [by left|done].
  - intros rel _ H. by apply elem_of_nil in H.
  - exists d', paths. split; [done|]. split; [done|]. intros rel H. apply (same_provided M d d1 d' rel); [done|]. apply P; [done|by right].
Qed.
