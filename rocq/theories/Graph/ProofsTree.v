From Coq Require Import Sorted.
From stdpp Require Import list list_numbers.
From Verif.Base Require Import Outcome ListLemmas.
From Verif.Graph Require Import Model ModelWeighted Spec SpecWeighted ModelTree SpecTree ProofsBase ProofsCount ProofsEmb ProofsPartial
  ProofsTop ProofsInduced ProofsPrune ProofsPruneBack.
Local Open Scope res_scope.
Local Notation increasing := (StronglySorted lt).

Section all.
  Context {W V : Type} `{!EqDecision W}.
  Implicit Types g : wgraph W V.

  (** *** prune takes away a subtree *)

  Lemma prune_exact fl d g ps n :
    consistent fl g -> tree_rep d (edges g) ps -> tree_shaped ps -> n < order (edges g) ->
    (d <> Backward -> ordered ps) -> (d = Symmetric -> parent_first (edges g) ps) ->
    exists g' K, prune fl d n g = Ok (Done g') /\ consistent fl g' /\ outside ps n K /\ w_induced fl K g g'.
  Proof.
    intros Hc Hrep Hsh Hn Hord Hpf. assert (HN : order (edges g) = length ps) by apply Hrep.
    assert (Hdec : d = Backward \/ d <> Backward) by (destruct d; auto). destruct Hdec as [->|Hd].
    - cbn [prune]. destruct (prune_backward_ok fl g ps n) as (g' & K & H1 & H2 & H3 & H4 & H5); [done|done|lia|done|].
      by exists g', K.
    - assert (Hp : prune fl d n g = prune_down (S (order (edges g))) fl d n g) by (destruct d; [done|done..]).
      rewrite Hp. destruct (prune_down_ok fl d g ps Hrep Hsh (Hord Hd) Hpf Hd (S (order (edges g))) (seq 0 (length ps)) g n n)
        as (g' & K & H1 & H2 & H3).
      + by apply (left_over_all _ d).
      + apply lookup_seq. lia.
      + lia.
      + exists g', K. split; [done|]. split; [apply (lo_consistent _ _ _ _ _ H2)|]. split; [|apply (lo_induced _ _ _ _ _ H2)].
        split; [apply (lo_increasing _ _ _ _ _ H2)|]. intros x. rewrite H3, elem_of_seq. split; intros [? ?]; (split; [lia|done]).
  Qed.

  Lemma prune_out_of_range fl d g n :
    order (edges g) <= n ->
    prune fl d n g = Ok match d with Backward => Done g | _ => Failed OutOfRange g end.
  Proof.
    intros Hn. assert (Ht : targets n g = Throw OutOfRange) by (unfold targets; destruct (Nat.ltb_spec n (order (edges g))); [lia|done]).
    assert (Hpe : forall fuel visit keep, prune_edges fuel visit keep n g = Ok (Failed OutOfRange g)) by (intros [|fuel] visit keep; cbn; by rewrite Ht).
    destruct d; cbn [prune prune_down].
    - by rewrite Hpe.
    - unfold prune_backward. destruct (Nat.leb_spec (order (edges g)) n); [done|lia].
    - by rewrite Hpe.
  Qed.
End all.

(** *** What is left is a tree *)

Lemma outside_closed ps n K : tree_shaped ps -> outside ps n K -> up_closed ps K.
Proof.
  intros Hsh [_ HK] x p Hx Hp. apply HK in Hx as [Hx Hna]. apply HK.
  split; [by eapply parent_valid|]. intros Ha. apply Hna. by eapply anc_up.
Qed.

Lemma increasing_lt K i j x y : increasing K -> K !! i = Some x -> K !! j = Some y -> x < y -> i < j.
Proof.
  intros HK Hi Hj Hlt. rewrite (increasing_index K i x HK Hi), (increasing_index K j y HK Hj).
  apply (filter_shorter _ _ K x); [intros; lia|by eapply elem_of_list_lookup_2|done|lia].
Qed.

Section kept.
  Context (ps : list (option nat)) (K : list nat) (HK : increasing K) (Hcl : up_closed ps K) (Hlt : forall x, x ∈ K -> x < length ps).

  Definition keep_parents : list (option nat) :=
    map (fun n => match ps !! n with Some (Some p) => fst <$> list_find (eq p) K | _ => None end) K.

  Lemma keep_parents_kept : kept K ps keep_parents.
  Proof.
    split; [apply map_length|]. intros i n Hi. eexists. split; [unfold keep_parents; rewrite list_lookup_fmap, Hi; done|].
    assert (Hn : n ∈ K) by by eapply elem_of_list_lookup_2. destruct (lookup_in_range ps n (Hlt n Hn)) as [[p|] Hp]; rewrite Hp; [|done].
    assert (HpK : p ∈ K) by by eapply Hcl. destruct (list_find_elem_of (eq p) K p HpK eq_refl) as [[j q] Hj]. rewrite Hj. cbn.
    apply list_find_Some in Hj as (Hj & -> & _). by exists q.
  Qed.

  Lemma kept_unique ps1 ps2 : kept K ps ps1 -> kept K ps ps2 -> ps1 = ps2.
  Proof.
    intros [Hl1 H1] [Hl2 H2]. apply list_eq_same_length with (length K); [done|done|]. intros i o1 o2 Hi Ho1 Ho2.
    destruct (lookup_in_range K i Hi) as [n Hn]. destruct (H1 i n Hn) as (o1' & Ho1' & Hm1). destruct (H2 i n Hn) as (o2' & Ho2' & Hm2).
    assert (o1' = o1) as -> by congruence. assert (o2' = o2) as -> by congruence.
    destruct o1 as [j1|], o2 as [j2|]; [|destruct Hm1 as (p & ? & ?); congruence|destruct Hm2 as (p & ? & ?); congruence|done].
    destruct Hm1 as (p1 & Hp1 & Hn1), Hm2 as (p2 & Hp2 & Hn2). assert (p1 = p2) as -> by congruence. f_equal.
    eapply NoDup_lookup; [by apply increasing_NoDup|exact Hp1|done].
  Qed.

  Context (ps' : list (option nat)) (Hk : kept K ps ps').

  Lemma kept_some i n : K !! i = Some n -> forall j, ps' !! i = Some (Some j) <-> exists p, K !! j = Some p /\ ps !! n = Some (Some p).
  Proof.
    intros Hi j. destruct (proj2 Hk i n Hi) as (o & Ho & Hm). rewrite Ho. split.
    - intros [= ->]. done.
    - intros (p & Hp & Hn). destruct o as [j'|]; [|congruence]. destruct Hm as (p' & Hp' & Hn'). assert (p' = p) as -> by congruence.
      do 2 f_equal. eapply NoDup_lookup; [by apply increasing_NoDup|exact Hp'|done].
  Qed.

  Lemma kept_none i n : K !! i = Some n -> ps' !! i = Some None <-> ps !! n = Some None.
  Proof.
    intros Hi. destruct (proj2 Hk i n Hi) as (o & Ho & Hm). rewrite Ho. split.
    - by intros [= ->].
    - intros Hn. destruct o as [j|]; [|done]. destruct Hm as (p & _ & Hp). congruence.
  Qed.

  Lemma kept_index i : i < length ps' -> exists n, K !! i = Some n.
  Proof. intros Hi. apply lookup_in_range. by rewrite <- (proj1 Hk). Qed.

  Lemma kept_anc n a i j : anc ps n a -> K !! i = Some n -> K !! j = Some a -> anc ps' i j.
  Proof.
    intros Ha. revert i. induction Ha as [n Hn|n p a Hp Ha IH]; intros i Hi Hj.
    - assert (i = j) as -> by (eapply NoDup_lookup; [by apply increasing_NoDup|exact Hi|done]). apply anc_refl.
      rewrite (proj1 Hk). by apply lookup_lt_Some in Hj.
    - assert (HpK : p ∈ K) by (apply (Hcl n p); [by eapply elem_of_list_lookup_2|done]). apply elem_of_list_lookup_1 in HpK as [m Hm].
      apply anc_up with m; [|by apply IH]. apply (kept_some i n Hi). by exists p.
  Qed.

  Lemma kept_tree : tree_shaped ps -> tree_shaped ps'.
  Proof.
    intros [Hps|(r & Hr & Hall)].
    - left. apply nil_length_inv. destruct (decide (0 < length ps')) as [H0|]; [|lia]. destruct (kept_index 0 H0) as [x Hx].
      apply elem_of_list_lookup_2 in Hx. specialize (Hlt x Hx). rewrite Hps in Hlt. cbn in Hlt. lia.
    - destruct (decide (ps' = [])) as [|Hne]; [by left|right].
      assert (H0 : 0 < length ps') by (assert (length ps' <> 0) by (by intros ?%nil_length_inv); lia). destruct (kept_index 0 H0) as [x Hx].
      assert (HrK : r ∈ K). { eapply (up_closed_anc ps K x); [done|by eapply elem_of_list_lookup_2|]. apply Hall, Hlt. by eapply elem_of_list_lookup_2. }
      apply elem_of_list_lookup_1 in HrK as [j Hj]. exists j. split; [by apply (kept_none j r)|].
      intros i Hi. destruct (kept_index i Hi) as [n Hn]. eapply kept_anc; [|exact Hn|exact Hj]. apply Hall, Hlt. by eapply elem_of_list_lookup_2.
  Qed.

  Lemma kept_ordered : ordered ps -> ordered ps'.
  Proof.
    intros Ho i j Hi. destruct (kept_index i) as [n Hn]; [by apply lookup_lt_Some in Hi|]. destruct (proj1 (kept_some i n Hn j) Hi) as (p & Hj & Hp).
    eapply increasing_lt; [done|exact Hj|exact Hn|]. by apply Ho.
  Qed.

  Lemma kept_parent_of i n : K !! i = Some n -> Forall2 (fun t y => K !! y = Some t) (filter (fun t => t ∈ K) (parent_of ps n)) (parent_of ps' i).
  Proof.
    intros Hi. unfold parent_of. destruct (proj2 Hk i n Hi) as (o & -> & Hm). destruct o as [j|].
    - destruct Hm as (p & Hj & ->). rewrite filter_cons_True by by eapply elem_of_list_lookup_2. by repeat constructor.
    - rewrite Hm. constructor.
  Qed.

  Lemma kept_children_of i n : K !! i = Some n ->
    exists l, l ≡ₚ filter (fun t => t ∈ K) (children_of ps n) /\ Forall2 (fun t y => K !! y = Some t) l (children_of ps' i).
  Proof.
    intros Hi. assert (Hc : forall c, c ∈ children_of ps' i -> exists t, K !! c = Some t /\ ps !! t = Some (Some n)).
    { intros c Hc. apply children_elem in Hc. destruct (kept_index c) as [t Ht]; [by apply lookup_lt_Some in Hc|]. exists t. split; [done|].
      destruct (proj1 (kept_some c t Ht i) Hc) as (p & Hp & Hps). congruence. }
    exists (map (fun c => K !!! c) (children_of ps' i)). split.
    - apply NoDup_Permutation.
      + apply NoDup_fmap_2_strong; [|apply NoDup_filter, NoDup_seq]. intros x y Hx Hy Heq.
        destruct (Hc x Hx) as (t & Ht & _), (Hc y Hy) as (u & Hu & _).
        rewrite (list_lookup_total_correct _ _ _ Ht), (list_lookup_total_correct _ _ _ Hu) in Heq. subst u.
        eapply NoDup_lookup; [by apply increasing_NoDup|exact Ht|done].
      + apply NoDup_filter, NoDup_filter, NoDup_seq.
      + intros t. rewrite elem_of_list_filter, children_elem, elem_of_list_fmap. split.
        * intros (c & -> & Hcc). destruct (Hc c Hcc) as (t & Ht & Hps). rewrite (list_lookup_total_correct _ _ _ Ht).
          split; [by eapply elem_of_list_lookup_2|done].
        * intros [HtK Ht]. apply elem_of_list_lookup_1 in HtK as [c Hcc]. exists c.
          split; [symmetry; exact (list_lookup_total_correct _ _ _ Hcc)|]. apply children_elem. apply (kept_some c t Hcc). by exists n.
    - apply Forall2_fmap_l. revert Hc. generalize (children_of ps' i) as l. induction l as [|c l IH]; intros Hc; constructor.
      + destruct (Hc c) as (t & Ht & _); [left|]. change (K !! c = Some (K !!! c)). by rewrite (list_lookup_total_correct _ _ _ Ht).
      + apply IH. intros x Hx. apply Hc. by right.
  Qed.

  Lemma translated l m l' m' :
    Forall2 (fun t y => K !! y = Some t) l m -> Forall2 (fun t y => K !! y = Some t) l' m' -> l ≡ₚ l' -> m ≡ₚ m'.
  Proof.
    intros H1 H2 Hp. destruct (Permutation_Forall2 Hp H1) as (m2 & Hm & H3). rewrite Hm.
    assert (m2 = m') as ->; [|done]. clear -H2 H3 HK. revert m' m2 H2 H3. induction l' as [|t l IH]; intros m' m2 H2 H3; inversion H2; inversion H3; subst; [done|].
    f_equal; [|by apply IH]. eapply NoDup_lookup; [by apply increasing_NoDup|done..].
  Qed.

  Context {W : Type}.
  Implicit Types g : graph W.

  Lemma induced_targets fl g g' i n : induced fl K g g' -> K !! i = Some n ->
    Forall2 (fun t y => K !! y = Some t) (filter (fun t => t ∈ K) (map tgt (row g n))) (map tgt (row g' i)).
  Proof.
    intros [_ Hr] Hi. specialize (Hr i n Hi).
    assert (Hf : filter (fun t => t ∈ K) (map tgt (row g n)) = map tgt (filter (fun e => tgt e ∈ K) (row g n))).
    { generalize (row g n) as r. induction r as [|e r IH]; [done|]. cbn [map]. rewrite !filter_cons. destruct (decide (tgt e ∈ K)); cbn; by rewrite IH. }
    rewrite Hf. apply Forall2_fmap. eapply Forall2_impl; [exact Hr|]. by intros e y [? _].
  Qed.

  Lemma induced_tree fl d g g' : tree_rep d g ps -> induced fl K g g' -> tree_rep d g' ps'.
  Proof.
    intros [Hl Hr] Hi. split; [rewrite (proj1 Hi); symmetry; apply Hk|]. intros i Hlti. destruct (kept_index i Hlti) as [n Hn].
    pose proof (induced_targets fl g g' i n Hi Hn) as Ht. assert (Hnp : n < length ps) by (apply Hlt; by eapply elem_of_list_lookup_2).
    specialize (Hr n Hnp). pose proof (kept_parent_of i n Hn) as Hp. destruct (kept_children_of i n Hn) as (l & Hl1 & Hc).
    assert (Hf : filter (fun t => t ∈ K) (map tgt (row g n)) ≡ₚ filter (fun t => t ∈ K) (match d with Forward => children_of ps n | Backward => parent_of ps n | Symmetric => parent_of ps n ++ children_of ps n end)) by by rewrite Hr.
    destruct d.
    - eapply translated; [exact Ht|exact Hc|]. by rewrite Hf, Hl1.
    - eapply translated; [exact Ht|exact Hp|done].
    - eapply translated; [exact Ht|apply Forall2_app; [exact Hp|exact Hc]|]. by rewrite Hf, filter_app, Hl1.
  Qed.

  Lemma induced_parent_first fl g g' : parent_first g ps -> induced fl K g g' -> parent_first g' ps'.
  Proof.
    intros Hpf Hi i j Hij. destruct (kept_index i) as [n Hn]; [by apply lookup_lt_Some in Hij|].
    destruct (proj1 (kept_some i n Hn j) Hij) as (p & Hp & Hps). specialize (Hpf n p Hps). pose proof (induced_targets fl g g' i n Hi Hn) as Ht.
    destruct (map tgt (row g n)) as [|t l]; [done|]. cbn in Hpf. injection Hpf as ->.
    rewrite filter_cons_True in Ht by by eapply elem_of_list_lookup_2. inversion Ht as [|? y ? ? Hy]; subst. cbn. f_equal.
    eapply NoDup_lookup; [by apply increasing_NoDup|exact Hy|done].
  Qed.
End kept.

Lemma outside_tree {W} ps n K ps' fl d (g g' : graph W) :
  tree_shaped ps -> outside ps n K -> kept K ps ps' -> tree_rep d g ps -> induced fl K g g' ->
  tree_rep d g' ps' /\ tree_shaped ps'.
Proof.
  intros Hsh Ho Hk Hr Hi. pose proof (outside_closed ps n K Hsh Ho) as Hcl.
  assert (Hlt : forall x, x ∈ K -> x < length ps) by (intros x Hx; by apply (proj2 Ho) in Hx as [? _]).
  split; [by eapply (induced_tree ps K); [apply Ho|..]|by eapply (kept_tree ps K); [apply Ho|..]].
Qed.
