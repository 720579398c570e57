(** Proofs about the comparison of paths. *)
From Coq Require Import Ascii String.
From stdpp Require Import list sorting.
From Verif.Base Require Import Outcome Compare ListLemmas.
From Verif.Text Require Import Model.
From Verif.SoftUpdate Require Import Model Spec Proofs ProofsFormed.
From Verif.TextCheck Require Proofs.
From Verif.PathCheck Require Import Model Spec.
Local Open Scope res_scope.

Local Notation dir := (list (text * node)) (only parsing).

Lemma excluded_spec n : is_excluded n = true <-> excluded n.
Proof.
  unfold is_excluded, excluded. change keep with (list_ascii_of_string ".keep"). unfold ds_store.
  destruct (decide (n = list_ascii_of_string ".DS_Store")) as [H|H]; [by split; [left|]|].
  destruct (decide (n = list_ascii_of_string ".keep")) as [H'|H']; [by split; [right; left|]|].
  destruct (decide (extension n = seqpat)) as [H''|H'']; [by split; [right; right|]|].
  split; [discriminate|]. intros [?|[?|?]]; contradiction.
Qed.

Lemma names_elem d m : m ∈ names d <-> visible d m.
Proof.
  unfold names, visible. rewrite sort_by_perm, elem_of_list_In, filter_In, <- elem_of_list_In, entry_names, <- excluded_spec.
  by destruct (is_excluded m); cbn; split; intros [? ?]; split; intuition congruence.
Qed.

Lemma names_sorted d : NoDup (map fst d) -> StronglySorted (lt_by (cmp := text_compare)) (names d).
Proof. intros H. apply (sort_by_strict text_total). by apply NoDup_ListNoDup, List.NoDup_filter, NoDup_ListNoDup. Qed.

Lemma strict_nodup l : StronglySorted (lt_by (cmp := text_compare)) l -> NoDup l.
Proof.
  induction 1 as [|x l Hs IH HF]; constructor; [|done]. intros Hx. rewrite Forall_forall in HF. specialize (HF x Hx).
  by apply (cmp_irrefl text_total) in HF.
Qed.

Lemma sorted_impl {A} (R S : A -> A -> Prop) l : (forall x y, R x y -> S x y) -> StronglySorted R l -> StronglySorted S l.
Proof. intros H. induction 1 as [|x l Hs IH HF]; constructor; [done|]. eapply Forall_impl; [exact HF|]. cbn. intros y. apply H. Qed.

Lemma strict_unique l l' : StronglySorted (lt_by (cmp := text_compare)) l -> StronglySorted (lt_by (cmp := text_compare)) l' ->
  (forall m, m ∈ l <-> m ∈ l') -> l = l'.
Proof.
  intros H H' Hm. apply (sorted_unique_by text_total).
  - eapply sorted_impl; [|exact H]. intros x y Hxy. unfold le_by. by apply (cmp_asym text_total).
  - eapply sorted_impl; [|exact H']. intros x y Hxy. unfold le_by. by apply (cmp_asym text_total).
  - apply NoDup_Permutation; [by apply strict_nodup..|exact Hm].
Qed.

Lemma first_mismatch_none l : forall l', first_mismatch l l' = None <-> l = l'.
Proof.
  induction l as [|x l IH]; intros [|y l']; cbn; [done..|]. destruct (decide (x = y)) as [->|Hn].
  - rewrite IH. split; [by intros ->|by intros [= ->]].
  - split; [discriminate|]. intros [= ? ?]. contradiction.
Qed.

Definition first_in (P : text -> Prop) (m : text) (o : option text) : Prop :=
  match o with
  | Some w => P w /\ text_compare m w <> Gt /\ forall v, P v -> text_compare m v <> Gt -> text_compare w v <> Gt
  | None => forall v, P v -> text_compare m v = Gt
  end.

Lemma text_lt_gt x y : text_compare x y = Lt <-> text_compare y x = Gt.
Proof. rewrite (cmp_opp text_total x y). by destruct (text_compare x y). Qed.
Lemma text_refl x : text_compare x x = Eq.
Proof. apply (cmp_refl text_total). Qed.

Lemma first_in_cons x l m o : text_compare x m = Lt -> first_in (fun v => v ∈ l) m o -> first_in (fun v => v ∈ x :: l) m o.
Proof.
  intros Hx. apply text_lt_gt in Hx. destruct o as [w|]; cbn.
  - intros (H1&H2&H3). split; [by right|]. split; [done|]. intros v [->|Hv]%elem_of_cons Hm; [congruence|by apply H3].
  - intros H v [->|Hv]%elem_of_cons; [done|by apply H].
Qed.

Lemma sorted_head x l v : StronglySorted (lt_by (cmp := text_compare)) (x :: l) -> v ∈ l -> text_compare x v = Lt.
Proof. intros H Hv. apply StronglySorted_inv in H as [_ H]. rewrite Forall_forall in H. by apply H. Qed.

Lemma first_in_head x l m : StronglySorted (lt_by (cmp := text_compare)) (x :: l) -> text_compare m x <> Gt -> first_in (fun v => v ∈ x :: l) m (Some x).
Proof.
  intros Hs Hm. split; [by left|]. split; [done|]. intros v [->|Hv]%elem_of_cons _.
  - by rewrite text_refl.
  - apply (sorted_head _ _ _ Hs) in Hv. congruence.
Qed.

Lemma less_all x l v : StronglySorted (lt_by (cmp := text_compare)) (x :: l) -> text_compare v x = Lt -> v ∉ x :: l.
Proof.
  intros Hs Hv [->|Hin]%elem_of_cons; [by rewrite text_refl in Hv|]. apply (sorted_head _ _ _ Hs) in Hin.
  by apply (cmp_asym text_total) in Hv.
Qed.

Definition splits (P P' : text -> Prop) (o o' : option text) (m : text) : Prop :=
  (P m <-> ~ P' m) /\ (forall v, text_compare v m = Lt -> P v <-> P' v) /\ first_in P m o /\ first_in P' m o'.

Lemma first_mismatch_some l : forall l' o o', StronglySorted (lt_by (cmp := text_compare)) l -> StronglySorted (lt_by (cmp := text_compare)) l' ->
  first_mismatch l l' = Some (o, o') -> exists m, splits (fun v => v ∈ l) (fun v => v ∈ l') o o' m.
Proof.
  induction l as [|x l IH]; intros [|y l'] o o' Hs Hs'; cbn [first_mismatch].
  - discriminate.
  - intros [= <- <-]. exists y. split; [|split; [|split]].
    + rewrite elem_of_nil, elem_of_cons. intuition.
    + intros v Hv. apply (less_all _ _ _ Hs') in Hv. rewrite elem_of_nil. done.
    + intros v Hv. by apply elem_of_nil in Hv.
    + apply first_in_head; [done|]. by rewrite text_refl.
  - intros [= <- <-]. exists x. split; [|split; [|split]].
    + rewrite elem_of_nil, elem_of_cons. intuition.
    + intros v Hv. apply (less_all _ _ _ Hs) in Hv. rewrite elem_of_nil. done.
    + apply first_in_head; [done|]. by rewrite text_refl.
    + intros v Hv. by apply elem_of_nil in Hv.
  - destruct (decide (x = y)) as [->|Hn].
    + intros H. assert (Hs1 := proj1 (StronglySorted_inv Hs)). assert (Hs1' := proj1 (StronglySorted_inv Hs')).
      destruct (IH l' o o' Hs1 Hs1' H) as (m&H1&H2&H3&H4). exists m.
      assert (text_compare y m = Lt) as Hm.
      { destruct (decide (m ∈ l)) as [Hl|Hl]; [by apply (sorted_head _ _ _ Hs)|].
        destruct (decide (m ∈ l')) as [Hl'|Hl']; [by apply (sorted_head _ _ _ Hs')|]. tauto. }
      assert (m <> y) as Hmy. { intros ->. by rewrite text_refl in Hm. }
      split; [|split; [|split]].
      * rewrite !elem_of_cons. tauto.
      * intros v Hv. rewrite !elem_of_cons. specialize (H2 v Hv). tauto.
      * by apply first_in_cons.
      * by apply first_in_cons.
    + intros [= <- <-]. destruct (text_compare x y) eqn:E.
      * apply (cmp_eq text_total) in E. contradiction.
      * exists x. assert (x ∉ y :: l') as Hx by (apply less_all; done). split; [|split; [|split]].
        -- split; [done|]. intros _. by left.
        -- intros v Hv. assert (v ∉ x :: l) by (apply less_all; done).
           assert (v ∉ y :: l') by (apply less_all; [done|]; by apply (cmp_trans text_total _ x)). tauto.
        -- apply first_in_head; [done|]. by rewrite text_refl.
        -- apply first_in_head; [done|]. congruence.
      * apply text_lt_gt in E. exists y. assert (y ∉ x :: l) as Hx by (apply less_all; done). split; [|split; [|split]].
        -- split; [done|]. intros H. destruct H. by left.
        -- intros v Hv. assert (v ∉ y :: l') by (apply less_all; done).
           assert (v ∉ x :: l) by (apply less_all; [done|]; by apply (cmp_trans text_total _ y)). tauto.
        -- apply first_in_head; [done|]. congruence.
        -- apply first_in_head; [done|]. by rewrite text_refl.
Qed.

Lemma first_in_unique P m o o' : first_in P m o -> first_in P m o' -> o = o'.
Proof.
  destruct o as [w|], o' as [w'|]; cbn; [|by intros (H1&H2&_) H; apply H in H1|by intros H (H1&H2&_); apply H in H1|done].
  intros (H1&H2&H3) (H1'&H2'&H3'). specialize (H3 w' H1' H2'). specialize (H3' w H1 H2). f_equal.
  apply (cmp_eq text_total). destruct (text_compare w w') eqn:E; [done| |done]. by apply text_lt_gt in E.
Qed.

Lemma splits_unique P P' o1 o1' m1 o2 o2' m2 :
  (forall v, P v \/ ~ P v) -> (forall v, P' v \/ ~ P' v) -> splits P P' o1 o1' m1 -> splits P P' o2 o2' m2 -> o1 = o2 /\ o1' = o2'.
Proof.
  intros D D' (H1&H2&H3&H4) (G1&G2&G3&G4).
  assert (m1 = m2) as ->.
  { apply (cmp_eq text_total). destruct (text_compare m1 m2) eqn:E; [done| |].
    - specialize (G2 _ E). destruct (D m1), (D' m1); tauto.
    - apply text_lt_gt in E. specialize (H2 _ E). destruct (D m2), (D' m2); tauto. }
  split; by eapply first_in_unique.
Qed.

Lemma splits_iff (P Q P' Q' : text -> Prop) o o' m : (forall v, P v <-> Q v) -> (forall v, P' v <-> Q' v) -> splits P P' o o' m -> splits Q Q' o o' m.
Proof.
  intros H H' (H1&H2&H3&H4).
  assert (forall R R' k u, (forall v, R v <-> R' v) -> first_in R k u -> first_in R' k u) as Hfi.
  { intros R R' k [w|] HR; cbn.
    - intros (A&B&C). split; [by apply HR|]. split; [done|]. intros v Hv. apply C. by apply HR.
    - intros A v Hv. apply A. by apply HR. }
  split; [by rewrite <- H, <- H'|]. split; [|split; [by eapply Hfi|by eapply Hfi]]. intros v Hv. rewrite <- H, <- H'. by apply H2.
Qed.

Lemma same_names d d' : NoDup (map fst d) -> NoDup (map fst d') -> names d = names d' <-> forall m, visible d m <-> visible d' m.
Proof.
  intros Hd Hd'. split.
  - intros H m. by rewrite <- !names_elem, H.
  - intros H. apply strict_unique; [by apply names_sorted..|]. intros m. by rewrite !names_elem.
Qed.

Lemma mismatch_names d d' o o' : NoDup (map fst d) -> NoDup (map fst d') ->
  first_mismatch (names d) (names d') = Some (o, o') <-> exists m, splits (visible d) (visible d') o o' m.
Proof.
  intros Hd Hd'.
  assert (forall u u', first_mismatch (names d) (names d') = Some (u, u') -> exists m, splits (visible d) (visible d') u u' m) as Hfwd.
  { intros u u' H. apply first_mismatch_some in H as (m&H); [|by apply names_sorted..]. exists m.
    eapply splits_iff; [..|exact H]; intros v; apply names_elem. }
  split; [apply Hfwd|]. intros (m&H). destruct (first_mismatch (names d) (names d')) as [[u u']|] eqn:E.
  - destruct (Hfwd u u' eq_refl) as (m'&H').
    assert (forall x v, visible x v \/ ~ visible x v) as D. { intros x v. rewrite <- names_elem. destruct (decide (v ∈ names x)); tauto. }
    destruct (splits_unique _ _ _ _ _ _ _ _ (D d) (D d') H H') as [-> ->]. done.
  - apply first_mismatch_none in E. destruct H as (H&_). rewrite <- !names_elem, E in H. tauto.
Qed.
