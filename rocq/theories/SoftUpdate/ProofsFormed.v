(** Folders stay well formed when they are updated. *)
From stdpp Require Import list.
From Verif.Base Require Import Outcome Compare.
From Verif.Text Require Import Model.
From Verif.SoftUpdate Require Import Model Spec Proofs.
Local Open Scope res_scope.

Definition formed (e : node) : Prop := match e with File _ => True | Dir x => well_formed x end.

Lemma entry_formed d n e : well_formed d -> entry d n = Some e -> formed e.
Proof. intros [_ _ H] He. destruct e; [done|]. by eapply H. Qed.

Lemma put_formed d n e : well_formed d -> n <> [] -> formed e -> well_formed (put d n e).
Proof.
  intros [H1 H2 H3] Hn He. constructor.
  - by apply put_nodup.
  - rewrite put_names. case_decide; [done|]. rewrite elem_of_app, elem_of_list_singleton. intros [?|?]; congruence.
  - intros m x. rewrite entry_put. case_decide; [|apply H3]. intros [= ->]. exact He.
Qed.

Lemma remove_formed d n : well_formed d -> well_formed (remove d n).
Proof.
  intros [H1 H2 H3].
  assert (forall m, m ∈ map fst (remove d n) -> m ∈ map fst d) as Hs.
  { intros m Hm. apply entry_names in Hm. rewrite entry_remove in Hm. apply entry_names. by case_decide. }
  constructor.
  - clear H2 H3 Hs. unfold remove. induction d as [|[m e] d IH]; cbn; [constructor|].
    cbn in H1. apply NoDup_cons in H1 as [Hm H1]. cbn [fst]. case_decide; [by apply IH|]. cbn.
    apply NoDup_cons. split; [|by apply IH]. intros Hin. apply Hm.
    apply elem_of_list_In, in_map_iff in Hin as (y&Hy&Hin). apply filter_In in Hin as [Hin _].
    apply elem_of_list_In, in_map_iff. by exists y.
  - intros H. by apply H2, Hs.
  - intros m x. rewrite entry_remove. case_decide; [done|]. apply H3.
Qed.

Lemma copy_special_formed t : forall f f1,
  [] ∉ map fst t -> well_formed f -> copy_special f t = Ok f1 -> well_formed f1.
Proof.
  induction t as [|[n [c|x]] t IH]; intros f f1 Hn Hf; cbn [copy_special].
  - intros [= <-]. done.
  - cbn in Hn. rewrite not_elem_of_cons in Hn. destruct Hn as [Hn Hn'].
    assert (forall f', copy_over f n c = Ok f' -> well_formed f') as Hover.
    { intros f' [_ ->]%copy_over_ok. apply put_formed; [done|congruence|done]. }
    assert (forall f1, (let? f' := copy_over f n c in copy_special f' t) = Ok f1 -> well_formed f1) as Hgo.
    { intros g H. destruct (copy_over f n c) as [f'| | |]; cbn [rbind] in H; try discriminate H.
      eapply IH; [exact Hn'| |exact H]. by apply Hover. }
    destruct (decide (extension n = seqpat)) as [_|_].
    + destruct (existsb (has_stem (stem n)) f); [apply Hgo|apply IH; assumption].
    + destruct (decide (n = keep)) as [_|_]; [apply Hgo|apply IH; assumption].
  - cbn in Hn. rewrite not_elem_of_cons in Hn. destruct Hn as [_ Hn]. by apply IH.
Qed.

Section update.
  Variable rx : text -> text -> text.
  Variable sub : list (text * node) -> list (text * node) -> res (list (text * node) * list (text * node)).
  Hypothesis Hsub : forall x y x' y', well_formed x -> well_formed y -> sub x y = Ok (x', y') -> well_formed x' /\ well_formed y'.

  Definition proper (l : list (text * kind)) : Prop := Forall (fun x => fst x <> []) l.

  Lemma update_pair_formed x f t f' t' : fst x <> [] -> well_formed f -> well_formed t ->
    update_pair rx sub x f t = Ok (f', t') -> well_formed f' /\ well_formed t'.
  Proof.
    intros Hx Hf Ht. unfold update_pair. destruct (entry f (fst x)) as [[a|u]|] eqn:Ef, (entry t (fst x)) as [[b|v]|] eqn:Et; intros Hq; try discriminate Hq; revert Hq.
    - case_decide; intros [= <- <-]; [done|]. split; [done|]. by apply put_formed.
    - destruct (sub u v) as [[u' v']| | |] eqn:Es; intros Hq; try discriminate Hq; revert Hq. cbn [rbind fst snd]. intros [= <- <-].
      apply Hsub in Es as [Hu Hv]; [|by eapply (entry_formed f (fst x) (Dir u))|by eapply (entry_formed t (fst x) (Dir v))].
      split; by apply put_formed.
  Qed.

  Lemma update_pairs_formed l : forall f t f' t', proper l -> well_formed f -> well_formed t ->
    update_pairs rx sub l f t = Ok (f', t') -> well_formed f' /\ well_formed t'.
  Proof.
    induction l as [|x l IH]; intros f t f' t' Hl Hf Ht; cbn [update_pairs].
    - intros [= <- <-]. done.
    - inversion Hl; subst. destruct (update_pair rx sub x f t) as [[f1 t1]| | |] eqn:E; intros Hq; try discriminate Hq; revert Hq. cbn [rbind fst snd].
      apply update_pair_formed in E as [? ?]; [|done..]. by apply IH.
  Qed.

  Lemma mismatch_proper lf : forall lt, proper lf -> proper (fst (mismatch lf lt)) /\ proper (fst (snd (mismatch lf lt))).
  Proof.
    induction lf as [|x lf IH]; intros lt Hl; cbn [mismatch]; [done|]. inversion Hl; subst.
    destruct lt as [|y lt]; [split; [by constructor|done]|]. destruct (entry_compare x y).
    - cbn [fst snd]. destruct (IH lt) as [? ?]; [done|]. split; [by constructor|done].
    - split; [by constructor|done].
    - split; [by constructor|done].
  Qed.

  Lemma copy_loop_formed lf : forall lt f t lf' t', proper lf -> well_formed f -> well_formed t ->
    copy_loop lf lt f t = Ok (lf', t') -> proper lf' /\ well_formed t'.
  Proof.
    induction lf as [|x lf IH]; intros lt f t lf' t' Hl Hf Ht; cbn [copy_loop].
    - intros [= <- <-]. done.
    - inversion Hl; subst. destruct (match lt with [] => true | y :: _ => _ end).
      + unfold copy_entry. destruct (entry t (fst x)); [discriminate|]. destruct (entry f (fst x)) as [e|] eqn:Ee; [|discriminate]. cbn [rbind].
        apply IH; [assumption|assumption|]. apply put_formed; [assumption|assumption|]. apply (entry_formed f (fst x)); assumption.
      + intros [= <- <-]. done.
  Qed.

  Lemma remove_loop_formed lf lt : forall t lt' t', well_formed t -> remove_loop lf lt t = Ok (lt', t') -> well_formed t'.
  Proof.
    induction lt as [|y lt IH]; intros t lt' t' Ht; cbn [remove_loop].
    - intros [= _ <-]. done.
    - destruct lf as [|x lf]; [done|]. destruct (entry_compare y x); [intros [= _ <-]; done| |intros [= _ <-]; done].
      apply IH. by apply remove_formed.
  Qed.

  Lemma update_entries_formed fuel : forall lf lt f t f' t', proper lf -> well_formed f -> well_formed t ->
    update_entries rx sub fuel lf lt f t = Ok (f', t') -> well_formed f' /\ well_formed t'.
  Proof.
    induction fuel as [|fuel IH]; intros lf lt f t f' t' Hl Hf Ht; cbn [update_entries]; [done|].
    destruct (mismatch lf lt) as [common [rf rt]] eqn:Em. cbn [fst snd].
    destruct (mismatch_proper lf lt Hl) as [Hc Hr]. rewrite Em in Hc, Hr. cbn [fst snd] in Hc, Hr.
    destruct (update_pairs rx sub common f t) as [[f1 t1]| | |] eqn:Eu; intros Hq; try discriminate Hq; revert Hq. cbn [rbind fst snd].
    apply update_pairs_formed in Eu as [Hf1 Ht1]; [|done..].
    destruct rf as [|x rf].
    - intros [= <- <-]. split; [done|]. clear Em. revert t1 Ht1. induction rt as [|y rt IHr]; intros t1 Ht1; cbn; [done|].
      apply IHr. by apply remove_formed.
    - destruct (copy_loop (x :: rf) rt f1 t1) as [[lf' t2]| | |] eqn:Ec; intros Hq; try discriminate Hq; revert Hq. cbn [rbind fst snd].
      apply copy_loop_formed in Ec as [Hlf' Ht2]; [|done..].
      destruct rt as [|y rt]; [intros [= <- <-]; done|].
      destruct (remove_loop lf' (y :: rt) t2) as [[lt' t3]| | |] eqn:Er; intros Hq; try discriminate Hq; revert Hq. cbn [rbind fst snd].
      apply remove_loop_formed in Er; [|done]. by apply IH.
  Qed.
End update.

Lemma soft_update_formed rx fuel : forall f t f' t', well_formed f -> well_formed t ->
  soft_update rx fuel f t = Ok (f', t') -> well_formed f' /\ well_formed t'.
Proof.
  induction fuel as [|fuel IH]; intros f t f' t' Hf Ht; cbn [soft_update]; [done|].
  destruct (copy_special f t) as [f1| | |] eqn:Ec; intros Hq; try discriminate Hq; revert Hq. cbn [rbind].
  assert (well_formed f1) as Hf1. { destruct Ht as [_ H _]. by eapply copy_special_formed. }
  apply update_entries_formed; [exact IH| |done|done].
  apply Forall_forall. intros [n k] Hin He. destruct Hf1 as [H1 H2 _]. apply H2. cbn [fst] in He. subst n.
  apply listing_elem in Hin as (e&He&_); [|done]. apply entry_names. congruence.
Qed.
