(** Proofs about exceptions thrown while an edge weight is mutated (C23, C24). *)
From stdpp Require Import list.
From Verif.Base Require Import Outcome ListLemmas.
From Verif.Graph Require Import Model ModelFaults Spec.
From Verif.Graph Require Import ProofsBase ProofsPartial ProofsComp ProofsEmb ProofsCount ProofsFaults.

Section mutate.
  Context {W : Type} `{!EqDecision W}.
  Implicit Types g : graph W.

  Lemma write1_row g t q x e i m : row g t !! q = Some e ->
    row (<[t := <[q := x]> (row g t)]> g) i !! m = if decide ((i, m) = (t, q)) then Some x else row g i !! m.
  Proof.
    intros H. pose proof (row_some_lt _ _ _ _ H) as Ht. pose proof (lookup_lt_Some _ _ _ H) as Hq.
    destruct (decide (i = t)) as [->|Hi].
    - rewrite row_insert_eq by done. destruct (decide (m = q)) as [->|Hm].
      + rewrite decide_True by done. by apply list_lookup_insert.
      + rewrite decide_False by congruence. by apply list_lookup_insert_ne.
    - rewrite row_insert_ne by done. by rewrite decide_False by congruence.
  Qed.

  Lemma mutate_directed {S} s k (f : S -> W -> option (S * W)) st e g : row g s !! k = Some e ->
    match f st (wt e) with
    | None => mutate_edge_weight_f Directed s k f st g = Ok (Threw g)
    | Some (_, w) => exists g', mutate_edge_weight_f Directed s k f st g = Ok (Finished g') /\ length g' = length g /\
        row g' s !! k = Some (Edge (tgt e) (comp e) w) /\ forall i m, (i, m) <> (s, k) -> row g' i !! m = row g i !! m
    end.
  Proof.
    intros Hk. unfold mutate_edge_weight_f. rewrite (get_row _ _ _ _ Hk). cbn [rbind]. destruct (f st (wt e)) as [[st1 w]|]; [|done].
    rewrite (upd_row _ _ _ _ _ Hk). cbn [rbind]. eexists. split; [done|]. split; [apply insert_length|]. split.
    - rewrite (write1_row g s k _ e s k Hk). by rewrite decide_True.
    - intros i m Hne. rewrite (write1_row g s k _ e i m Hk). by rewrite decide_False.
  Qed.

  Lemma mutate_halves {S} fl s k (f : S -> W -> option (S * W)) st e g : fl <> Directed -> graph_ok fl g -> row g s !! k = Some e ->
    exists t q e', (t, q) <> (s, k) /\ row g t !! q = Some e' /\ tgt e = t /\ tgt e' = s /\ wt e' = wt e /\
    match f st (wt e) with
    | None => mutate_edge_weight_f fl s k f st g = Ok (Threw g)
    | Some (st1, w1) => exists g', length g' = length g /\ row g' t !! q = Some (Edge (tgt e') (comp e') w1) /\
        (forall i m, (i, m) <> (s, k) -> (i, m) <> (t, q) -> row g' i !! m = row g i !! m) /\
        match f st1 (wt e) with
        | None => mutate_edge_weight_f fl s k f st g = Ok (Threw g') /\ row g' s !! k = Some e
        | Some (_, w2) => mutate_edge_weight_f fl s k f st g = Ok (Finished g') /\ row g' s !! k = Some (Edge (tgt e) (comp e) w2)
        end
    end.
  Proof.
    intros Hfl Hok Hk. destruct (partner_found fl g s k e Hfl Hok Hk) as (q & e' & Hp & Hq & Ht & Hw & Hne).
    exists (tgt e), q, e'. do 5 (split; [done|]).
    set (g1 := fun w1 => <[tgt e := <[q := set_wt w1 e']> (row g (tgt e))]> g).
    assert (Hs : forall w1, row (g1 w1) s !! k = Some e).
    { intros w1. unfold g1. rewrite (write1_row g _ q _ e' s k Hq). rewrite decide_False; [done|]. congruence. }
    assert (Hm : mutate_edge_weight_f fl s k f st g = match f st (wt e) with None => Ok (Threw g) | Some (st1, w1) =>
      match f st1 (wt e) with None => Ok (Threw (g1 w1)) | Some (_, w2) => Ok (Finished (<[s := <[k := set_wt w2 e]> (row (g1 w1) s)]> (g1 w1))) end end).
    { unfold mutate_edge_weight_f. destruct fl; [done|..]; rewrite Hp; cbn [rbind fst snd]; rewrite (get_row _ _ _ _ Hq); cbn [rbind]; rewrite Hw;
        (destruct (f st (wt e)) as [[st1 w1]|]; [|done]); rewrite (upd_row _ _ _ _ _ Hq); cbn [rbind];
        fold (g1 w1); rewrite (get_row _ _ _ _ (Hs w1)); cbn [rbind]; (destruct (f st1 (wt e)) as [[st2 w2]|]; [|done]);
        rewrite (upd_row _ _ _ _ _ (Hs w1)); done. }
    rewrite Hm. destruct (f st (wt e)) as [[st1 w1]|]; [|done]. destruct (f st1 (wt e)) as [[st2 w2]|].
    - eexists. split; [rewrite insert_length; apply insert_length|]. split; [|split; [|split; [done|]]].
      + rewrite (write1_row (g1 w1) s k _ e _ _ (Hs w1)), decide_False by done. unfold g1. rewrite (write1_row g _ q _ e' _ _ Hq). by rewrite decide_True.
      + intros i m H1 H2. rewrite (write1_row (g1 w1) s k _ e _ _ (Hs w1)), decide_False by done. unfold g1.
        rewrite (write1_row g _ q _ e' _ _ Hq). by rewrite decide_False.
      + rewrite (write1_row (g1 w1) s k _ e _ _ (Hs w1)). by rewrite decide_True.
    - exists (g1 w1). split; [apply insert_length|]. split; [|split; [|split; [done|apply Hs]]].
      + unfold g1. rewrite (write1_row g _ q _ e' _ _ Hq). by rewrite decide_True.
      + intros i m H1 H2. unfold g1. rewrite (write1_row g _ q _ e' _ _ Hq). by rewrite decide_False.
  Qed.

  Lemma mutate_first {S} fl s k (f : S -> W -> option (S * W)) st e g : graph_ok fl g -> row g s !! k = Some e -> f st (wt e) = None ->
    mutate_edge_weight_f fl s k f st g = Ok (Threw g).
  Proof.
    intros Hok Hk Hf. assert (fl = Directed \/ fl <> Directed) as [-> |Hfl] by (destruct fl; auto).
    - pose proof (mutate_directed s k f st e g Hk) as H. by rewrite Hf in H.
    - destruct (mutate_halves fl s k f st e g Hfl Hok Hk) as (t & q & e' & _ & _ & _ & _ & _ & H). by rewrite Hf in H.
  Qed.
End mutate.
