(** What is remembered after runs of the tests one after the other. *)
From Coq Require Import Ascii String NArith.
From stdpp Require Import list relations.
From Verif.Base Require Import Outcome Order ListLemmas.
From Verif.Text Require Import Model.
From Verif.Suite Require Import Model Spec.
From Verif.Depend Require Import Model Spec.
From Verif.Select Require Import Spec.
From Verif.History Require Import Model Spec ProofsFiles ProofsRun.

Section history.
  Context {T : Type} `{EqDecision T} (cutoff : text) (repo : list text) (source rel : T -> list text).
  Hypothesis Hrepo : named repo.
  Implicit Types (e : event T) (t : T).

  Notation history := (proper_history cutoff repo source rel finish (new_files repo rel)).
  Notation known := (known repo).

  (** The times of the files are not after [x]; a test which is not known to fail has passed, and is unchanged. *)
  Definition well_remembered (h : list (event T * list T)) (m : memory) : Prop :=
    exists F P, known m F P /\
      match h with
      | [] => m_stamp m = None /\ m_passes m = None
      | (e, _) :: _ =>
          (forall x, m_stamp m = Some x -> (x <= finish e)%N) /\ (forall x s, m_passes m = Some (x, s) -> (x <= finish e)%N)
          /\ forall t, has_test e t -> rel t ∉ F -> exists e0, last_execution h t e0 /\ passed e0 t = true
               /\ unchanged cutoff (world e0) (world e) (absolute repo ++ rel t) (rel t)
      end.

  Lemma history_last e ts h : history ((e, ts) :: h) -> proper_event cutoff repo source rel e.
  Proof. by inversion 1. Qed.

  Lemma history_tail x h : history (x :: h) -> history h.
  Proof. inversion 1; subst; [constructor|done]. Qed.

  (** What is left out by a run after these *)
  Lemma left_out h m e ts : history ((e, ts) :: h) -> forall F P t, known m F P ->
    match h with
    | [] => m_stamp m = None /\ m_passes m = None
    | (e, _) :: _ =>
        (forall x, m_stamp m = Some x -> (x <= finish e)%N) /\ (forall x s, m_passes m = Some (x, s) -> (x <= finish e)%N)
        /\ forall t, has_test e t -> rel t ∉ F -> exists e0, last_execution h t e0 /\ passed e0 t = true
             /\ unchanged cutoff (world e0) (world e) (absolute repo ++ rel t) (rel t)
    end -> has_test e t -> rel t ∉ F -> settled cutoff repo rel m e t ->
    exists e0, last_execution h t e0 /\ passed e0 t = true /\ unchanged cutoff (world e0) (world e) (absolute repo ++ rel t) (rel t).
  Proof.
    intros Hh F P t Hk Hm Ht HF (x & Hx & Hneeds & Hin). destruct h as [|[e' ts'] h].
    - destruct Hm as [H1 H2]. rewrite H1, H2 in Hx. destruct Hx as [?|(s & ?)]; done.
    - inversion Hh as [| |? ? ? ? ? Hp Hnext Hnew _]; subst. destruct Hm as (H1 & H2 & Hm).
      assert (x <= finish e')%N as Hle. { destruct Hx as [Hx|(s & Hx)]; [by apply H1|by eapply H2]. }
      destruct Hnext as [_ Hed]. destruct (proper_tests _ _ _ _ _ Hp t Ht) as (Hl & _).
      assert (has_test e' t) as Ht'.
      { destruct (Hnew t Ht) as [|Hlt]; [done|]. pose proof (Hneeds _ (rtc_refl _ _)). lia. }
      destruct (Hm t Ht' HF) as (e0 & He0 & Hpass & Hun). exists e0. split; [done|]. split; [done|].
      eapply unchanged_trans; [exact Hun|]. apply (unchanged_edited cutoff (finish e')); [done|done| |].
      + intros g Hg. pose proof (Hneeds g Hg). lia.
      + eapply Forall_impl; [exact Hin|]. cbn. intros y ?. lia.
  Qed.

  Lemma history_remembered h m : happened cutoff source h m -> history h -> Forall (fun x => not_chosen x.1) h -> well_remembered h m.
  Proof.
    induction 1 as [|e ts h m m' Hh IH Hr]; intros Hp Hnc.
    - exists [], []. split; [|done]. split; split; [done|by constructor|done|by constructor].
    - apply Forall_cons in Hnc as [Hnc Hncs]. destruct (IH (history_tail _ _ Hp) Hncs) as (F & P & Hk & Hm).
      pose proof (history_last _ _ _ Hp) as He.
      destruct (run_result cutoff repo source rel Hrepo e m F P ts m' He Hk Hnc Hr) as (F' & P' & Hk' & Hin & Hfail & Hleft & Hst & Hps).
      exists F', P'. split; [done|].
      assert (forall x, (m_stamp m = Some x \/ exists s, m_passes m = Some (x, s)) -> (x <= finish e)%N) as Hold.
      { intros x Hx. destruct h as [|[e' ts'] h].
        - destruct Hm as [H1 H2]. rewrite H1, H2 in Hx. destruct Hx as [?|(s & ?)]; done.
        - inversion Hp as [| |? ? ? ? ? _ Hnext _ _]; subst. destruct Hm as (H1 & H2 & _). pose proof (next_time _ _ _ Hnext).
          pose proof (proper_times _ _ _ _ _ He). assert (x <= finish e')%N; [|lia]. destruct Hx as [Hx|(s & Hx)]; [by apply H1|by eapply H2]. }
      split; [|split].
      + intros x Hx. destruct (Hst x Hx) as [H| ->]; [apply Hold; by left|]. apply (proper_times _ _ _ _ _ He).
      + intros x s Hx. destruct (Hps x s Hx) as [H| ->]; [apply Hold; right; by exists s|done].
      + intros t Ht HF. destruct (decide (t ∈ ts)) as [Hts|Hts].
        * exists e. split; [by exists [], ts, h|]. split; [|apply unchanged_refl; by apply (proper_tests _ _ _ _ _ He)].
          destruct (passed e t) eqn:E; [done|]. by apply (Hfail t Hts) in E.
        * destruct (Hleft t Ht Hts) as [HF' Hset]. destruct (left_out h m e ts Hp F P t Hk Hm Ht HF' Hset) as (e0 & (h1 & ts0 & h2 & -> & Hin0 & Hout) & H0).
          exists e0. split; [|done]. exists ((e, ts) :: h1), ts0, h2. split; [done|]. split; [done|]. by constructor.
  Qed.

  (** A further run *)
  Theorem further_run h m e ts m' : happened cutoff source h m -> history ((e, ts) :: h) -> Forall (fun x => not_chosen x.1) ((e, ts) :: h) ->
    run cutoff source e m = Ok (ts, m') -> forall t, has_test e t -> t ∉ ts ->
    exists e0, last_execution h t e0 /\ passed e0 t = true /\ unchanged cutoff (world e0) (world e) (absolute repo ++ rel t) (rel t).
  Proof.
    intros Hh Hp [Hnc Hncs]%Forall_cons Hr t Ht Hts. destruct (history_remembered h m Hh (history_tail _ _ Hp) Hncs) as (F & P & Hk & Hm).
    destruct (run_result cutoff repo source rel Hrepo e m F P ts m' (history_last _ _ _ Hp) Hk Hnc Hr) as (_ & _ & _ & _ & _ & Hleft & _).
    destruct (Hleft t Ht Hts) as [HF Hset]. by apply (left_out h m e ts Hp F P t Hk Hm).
  Qed.

  Theorem further_runs h m e ts : happened cutoff source h m -> history ((e, ts) :: h) -> Forall (fun x => not_chosen x.1) ((e, ts) :: h) ->
    (wish e = Pruned -> up_to_date e) -> exists ts' m', run cutoff source e m = Ok (ts', m') /\ forall t, t ∈ ts' -> has_test e t.
  Proof.
    intros Hh Hp [Hnc Hncs]%Forall_cons Hcur. destruct (history_remembered h m Hh (history_tail _ _ Hp) Hncs) as (F & P & Hk & Hm).
    destruct (run_ok cutoff repo source rel Hrepo e m F P (history_last _ _ _ Hp) Hk Hnc) as (ts' & m' & _ & _ & Hr & _ & Hin & _); [by intros; apply Hcur|].
    by exists ts', m'.
  Qed.
End history.
