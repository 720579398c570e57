(** Depth first traversal of trees. *)
From Coq Require Import Sorted.
From stdpp Require Import list list_numbers sorting.
From Verif.Base Require Import Outcome ListLemmas.
From Verif.Graph Require Import Model Spec ModelTraverse ModelWeighted ModelTree SpecTraverse SpecTree SpecSpan ProofsTraverseEdges ProofsTraverseTop ProofsTraverseDfs ProofsTree ProofsPrune.

Lemma tree_branch_ind (P : tree -> Prop) :
  (forall n bs, (forall b, b ∈ bs -> P b.2) -> P (Node n bs)) -> forall t, P t.
Proof.
  intros H. fix IH 1. intros [n bs]. apply H. induction bs as [|b bs IHbs]; intros b' Hb.
  { exfalso. by apply elem_of_nil in Hb. }
  apply elem_of_cons in Hb as [-> | Hb]; [apply IH|exact (IHbs b' Hb)].
Qed.

Lemma elem_of_concat_map {A B} (f : A -> list B) l x : x ∈ concat (map f l) <-> exists a, a ∈ l /\ x ∈ f a.
Proof.
  induction l as [|a l IH]; cbn; [split; [intros H; by apply elem_of_nil in H|intros (a & H & _); by apply elem_of_nil in H]|].
  rewrite elem_of_app, IH. setoid_rewrite elem_of_cons. naive_solver.
Qed.

Inductive sub_tree (u : tree) : tree -> Prop :=
  | sub_here : sub_tree u u
  | sub_branch n bs b : b ∈ bs -> sub_tree u b.2 -> sub_tree u (Node n bs).

Lemma sub_trans u v t : sub_tree u v -> sub_tree v t -> sub_tree u t.
Proof. intros H. induction 1; [done|]. by eapply sub_branch. Qed.

Lemma nodes_of_sub u t n : sub_tree u t -> n ∈ nodes_of u -> n ∈ nodes_of t.
Proof.
  induction 1 as [|m bs b Hb _ IH]; intros Hn; [done|]. cbn. right. apply elem_of_concat_map. exists b. split; [done|by apply IH].
Qed.

Lemma root_node t : root t ∈ nodes_of t.
Proof. destruct t. left. Qed.

Lemma befores_branches n bs : (forall b, b ∈ bs -> befores (tree_events b.2) = nodes_of b.2) ->
  befores (branch_events n bs) = concat (map (fun b => nodes_of b.2) bs).
Proof.
  induction bs as [|b bs IH]; intros H; [done|]. unfold branch_events. cbn [map concat].
  change ((First n b.1 :: tree_events b.2) ++ ?l) with ([First n b.1] ++ tree_events b.2 ++ l).
  rewrite !befores_app. cbn [app befores omap list_omap]. rewrite H by left. f_equal. apply IH. intros c Hc. apply H. by right.
Qed.

Lemma afters_branches n bs : (forall b, b ∈ bs -> afters (tree_events b.2) ≡ₚ nodes_of b.2) ->
  afters (branch_events n bs) ≡ₚ concat (map (fun b => nodes_of b.2) bs).
Proof.
  induction bs as [|b bs IH]; intros H; [done|]. unfold branch_events. cbn [map concat].
  change ((First n b.1 :: tree_events b.2) ++ ?l) with ([First n b.1] ++ tree_events b.2 ++ l).
  rewrite !afters_app. cbn [app afters omap list_omap]. f_equiv; [apply H; left|]. apply IH. intros c Hc. apply H. by right.
Qed.

Lemma befores_tree t : befores (tree_events t) = nodes_of t.
Proof.
  induction t as [n bs IH] using tree_branch_ind. rewrite tree_events_node. change (Before n :: ?l) with ([Before n] ++ l).
  rewrite !befores_app, befores_branches by done. cbn. by rewrite app_nil_r.
Qed.

Lemma afters_tree t : afters (tree_events t) ≡ₚ nodes_of t.
Proof.
  induction t as [n bs IH] using tree_branch_ind. rewrite tree_events_node. change (Before n :: ?l) with ([Before n] ++ l).
  rewrite !afters_app, afters_branches by done. cbn. by rewrite <- Permutation_cons_append.
Qed.

Lemma NoDup_concat_unique {A B} (f : A -> list B) l x a b :
  NoDup (concat (map f l)) -> a ∈ l -> b ∈ l -> x ∈ f a -> x ∈ f b -> a = b.
Proof.
  induction l as [|c l IH]; cbn; intros Hnd Ha Hb Hxa Hxb; [by apply elem_of_nil in Ha|].
  apply NoDup_app in Hnd as (_ & Hd & Hnd).
  assert (Hl : forall d, d ∈ l -> x ∈ f d -> x ∈ concat (map f l)).
  { intros d Hd' Hx. apply elem_of_concat_map. by exists d. }
  apply elem_of_cons in Ha as [-> | Ha]; apply elem_of_cons in Hb as [-> | Hb]; [done| | |by apply IH].
  - by destruct (Hd x Hxa (Hl b Hb Hxb)).
  - by destruct (Hd x Hxb (Hl a Ha Hxa)).
Qed.

Lemma NoDup_branch n bs b : NoDup (nodes_of (Node n bs)) -> b ∈ bs -> NoDup (nodes_of b.2).
Proof.
  cbn. intros Hnd Hb. apply NoDup_cons in Hnd as [_ Hnd]. apply elem_of_list_split in Hb as (l1 & l2 & ->).
  rewrite map_app, concat_app in Hnd. apply NoDup_app in Hnd as (_ & _ & Hnd). cbn in Hnd. by apply NoDup_app in Hnd as (? & _ & _).
Qed.

Lemma sub_unique T n b1 b2 : NoDup (nodes_of T) -> sub_tree (Node n b1) T -> sub_tree (Node n b2) T -> b1 = b2.
Proof.
  induction T as [m bs IH] using tree_branch_ind. intros Hnd H1 H2.
  assert (Hnot : forall b l, b ∈ bs -> sub_tree (Node n l) b.2 -> m = n -> False).
  { intros b l Hb Hs ->. cbn in Hnd. apply NoDup_cons in Hnd as [Hnd _]. apply Hnd. apply elem_of_concat_map. exists b.
    split; [done|]. eapply nodes_of_sub; [exact Hs|left]. }
  inversion H1 as [|? ? b Hb Hs]; subst.
  - inversion H2 as [|? ? b' Hb' Hs']; subst; [done|]. by destruct (Hnot b' b2 Hb' Hs').
  - inversion H2 as [|? ? b' Hb' Hs']; subst; [by destruct (Hnot b b1 Hb Hs)|].
    assert (b = b') as ->.
    { eapply (NoDup_concat_unique (fun b => nodes_of b.2) bs n); [by apply NoDup_cons in Hnd as [_ ?]|done|done| |].
      - eapply nodes_of_sub; [exact Hs|left].
      - eapply nodes_of_sub; [exact Hs'|left]. }
    apply (IH b' Hb'); [by eapply NoDup_branch|done|done].
Qed.

Lemma above_node T c : c ∈ nodes_of T -> c = root T \/ exists m bs b, sub_tree (Node m bs) T /\ b ∈ bs /\ root b.2 = c.
Proof.
  induction T as [m bs IH] using tree_branch_ind. cbn. intros Hc. apply elem_of_cons in Hc as [-> | Hc]; [by left|right].
  apply elem_of_concat_map in Hc as (b & Hb & Hc).
  destruct (IH b Hb Hc) as [-> | (m' & bs' & b' & Hs & Hb' & Hr)].
  - exists m, bs, b. split; [constructor|done].
  - exists m', bs', b'. split; [by eapply sub_branch|done].
Qed.

Lemma tree_of_sub {W} (g : graph W) u T : sub_tree u T -> tree_of g T -> tree_of g u.
Proof.
  induction 1 as [|n bs b Hb _ IH]; intros HT; [done|]. inversion HT as [? ? Hbs _]; subst. rewrite Forall_forall in Hbs.
  by apply IH, (Hbs b Hb).
Qed.

Global Instance lt_antisymm : AntiSymm (=) lt.
Proof. intros x y ? ?. lia. Qed.

Section spanning.
  Context {W : Type}.
  Implicit Types g : graph W.

  Lemma rep_parent g ps n e : tree_rep Forward g ps -> e ∈ row g n -> ps !! tgt e = Some (Some n).
  Proof.
    intros [Hl Hr] He. destruct (decide (n < length ps)) as [Hn|Hn].
    - apply (children_elem ps (tgt e) n). rewrite <- (Hr n Hn). apply elem_of_list_fmap. by exists e.
    - unfold row in He. rewrite lookup_ge_None_2 in He by lia. by apply elem_of_nil in He.
  Qed.

  Lemma rep_edge g ps n c : tree_rep Forward g ps -> n < length ps -> ps !! c = Some (Some n) -> exists e, e ∈ row g n /\ tgt e = c.
  Proof.
    intros [Hl Hr] Hn Hc. apply (children_elem ps c n) in Hc. rewrite <- (Hr n Hn) in Hc.
    apply elem_of_list_fmap in Hc as (e & -> & He). by exists e.
  Qed.

  Lemma rep_unique g ps n k k' e e' : tree_rep Forward g ps -> row g n !! k = Some e -> row g n !! k' = Some e' ->
    tgt e = tgt e' -> k = k'.
  Proof.
    intros [Hl Hr] Hk Hk' He. destruct (decide (n < length ps)) as [Hn|Hn].
    - assert (Hnd : NoDup (map tgt (row g n))) by (rewrite (Hr n Hn); apply NoDup_filter, NoDup_seq).
      eapply (NoDup_lookup _ k k' (tgt e) Hnd); rewrite list_lookup_fmap; [by rewrite Hk|rewrite Hk'; cbn; by rewrite He].
    - unfold row in Hk. rewrite (lookup_ge_None_2 g n) in Hk by lia. done.
  Qed.

  Lemma tree_of_spans g ps T : tree_rep Forward g ps -> ps !! root T = Some None -> tree_of g T ->
    NoDup (nodes_of T) -> (forall n, n ∈ nodes_of T <-> n < length ps) -> forall u, sub_tree u T -> spans g u.
  Proof.
    intros Hrep Hroot HT Hnd Hall. induction u as [n bs IH] using tree_branch_ind. intros Hs.
    pose proof (tree_of_sub g _ _ Hs HT) as Hu. inversion Hu as [? ? Hbs Hsorted]; subst. rewrite Forall_forall in Hbs.
    constructor.
    - apply (StronglySorted_unique lt); [done| |].
      { clear. generalize 0. induction (length (row g n)) as [|k IH]; intros a; cbn; constructor; [apply IH|].
        apply Forall_forall. intros x Hx. apply elem_of_seq in Hx. lia. }
      apply NoDup_Permutation; [|apply NoDup_seq|].
      { clear -Hsorted. induction Hsorted as [|a l Hl IH Ha]; constructor; [|done]. intros H. rewrite Forall_forall in Ha.
        specialize (Ha a H). lia. }
      intros k. rewrite elem_of_seq. split.
      + intros Hk. apply elem_of_list_fmap in Hk as (b & -> & Hb). destruct (Hbs b Hb) as [Hlk _].
        destruct (row g n !! b.1) as [e|] eqn:E; [|done]. apply lookup_lt_Some in E. lia.
      + intros [_ Hk]. destruct (lookup_in_range (row g n) k Hk) as [e He].
        pose proof (rep_parent g ps n e Hrep ltac:(by eapply elem_of_list_lookup_2)) as Hpar.
        assert (Hin : tgt e ∈ nodes_of T) by (apply Hall; by eapply lookup_lt_Some).
        destruct (above_node T (tgt e) Hin) as [E|(m & bs' & b & Hs' & Hb & Hrb)]; [rewrite E in Hpar; congruence|].
        pose proof (tree_of_sub g _ _ Hs' HT) as Hu'. inversion Hu' as [? ? Hbs' _]; subst. rewrite Forall_forall in Hbs'.
        destruct (Hbs' b Hb) as [Hlk _]. destruct (row g m !! b.1) as [e'|] eqn:E'; [|done]. cbn in Hlk. injection Hlk as Hlk.
        pose proof (rep_parent g ps m e' Hrep ltac:(by eapply elem_of_list_lookup_2)) as Hpar'.
        assert (m = n) as -> by congruence. rewrite (sub_unique T n bs bs' Hnd Hs Hs').
        assert (k = b.1) as -> by (eapply (rep_unique g ps n k b.1 e e'); [done|done|done|congruence]).
        apply elem_of_list_fmap. by exists b.
    - apply Forall_forall. intros b Hb. split; [by apply Hbs|]. apply IH; [done|]. eapply sub_trans; [|exact Hs].
      eapply sub_branch; [exact Hb|constructor].
  Qed.

  Lemma dfs_tree_all find_all g ps r : in_range g -> tree_rep Forward g ps -> ps !! r = Some None ->
    (forall n, n < length ps -> anc ps n r) ->
    exists t, traverse_dfs find_all r g = Ok (tree_events t) /\ root t = r /\ spans g t /\ NoDup (nodes_of t)
      /\ forall n, n ∈ nodes_of t <-> n < length ps.
  Proof.
    intros Hin Hrep Hr Hanc. pose proof (proj1 Hrep) as Hl. assert (Hrl : r < order g) by (unfold order; apply lookup_lt_Some in Hr; lia).
    destruct (traverse_depth_first W find_all r g Hin Hrl) as (es & ts & Hes & Hev & Hts & Hhd & _ & Hnd & Hw & Haf & Hprec).
    destruct ts as [|t ts]; [done|]. cbn in Hhd. injection Hhd as Hroot. cbn [map concat] in Hev.
    pose proof (Forall_inv Hts) as Ht.
    assert (Hnda : NoDup (afters es)) by by rewrite Haf.
    assert (Hall : forall n, n < length ps -> n ∈ nodes_of t).
    { intros n Hn. specialize (Hanc n Hn). assert (Hle : forall x, x ∈ nodes_of t -> x ∈ befores es).
      { intros x Hx. rewrite Hev, befores_app, befores_tree. apply elem_of_app. by left. }
      induction Hanc as [n _|n p a Hp Ha IH]; [rewrite <- Hroot; apply root_node|].
      assert (Hpl : p < length ps) by (inversion Ha; [done|by eapply lookup_lt_Some]).
      specialize (IH Hr Hrl Hes Hroot Hw Hpl). destruct (rep_edge g ps p n Hrep Hpl Hp) as (e & He & Hte).
      specialize (Hprec p e (Hle p IH) He). rewrite Hte in Hprec. destruct Hprec as (l1 & l2 & l3 & Heq).
      assert (Hpa : p ∈ afters (tree_events t)) by by rewrite afters_tree.
      rewrite Hev in Heq. apply app_eq_app in Heq as (l & [[He1 He2]|[He1 He2]]).
      - (* tree_events t = l1 ++ l *)
        destruct l as [|x l].
        + exfalso. cbn in He2. rewrite app_nil_r in He1. rewrite Hev, afters_app in Hnda.
          apply NoDup_app in Hnda as (_ & Hd & _). apply (Hd p Hpa). rewrite <- He2.
          change (Before n :: l2 ++ After p :: l3) with ([Before n] ++ l2 ++ [After p] ++ l3).
          rewrite !afters_app, !elem_of_app. right. right. left. by left.
        + cbn in He2. injection He2 as <- He2. rewrite <- befores_tree, He1, befores_app, elem_of_app. right. by left.
      - exfalso. rewrite Hev, afters_app in Hnda. apply NoDup_app in Hnda as (_ & Hd & _). apply (Hd p Hpa). rewrite He2.
        change (Before n :: l2 ++ After p :: l3) with ([Before n] ++ l2 ++ [After p] ++ l3).
        rewrite !afters_app, !elem_of_app. right. right. right. left. by left. }
    assert (Hback : forall n, n ∈ befores es -> n < length ps).
    { intros n Hn. apply Hw in Hn. unfold wanted in Hn. destruct find_all; [lia|]. destruct Hn as [d Hd].
      inversion Hd as [|v e d' _ He]; subst; [unfold order in Hrl; lia|]. specialize (Hin _ _ He). lia. }
    assert (ts = []) as ->.
    { destruct ts as [|t' ts]; [done|]. exfalso. rewrite Hev, befores_app in Hnd. apply NoDup_app in Hnd as (_ & Hd & _).
      assert (Hrt : root t' ∈ befores (concat (map tree_events (t' :: ts)))).
      { cbn [map concat]. rewrite befores_app, befores_tree. apply elem_of_app. left. apply root_node. }
      apply (Hd (root t')); [|done]. rewrite befores_tree. apply Hall, Hback. rewrite Hev, befores_app. apply elem_of_app. by right. }
    cbn [map concat] in Hev. rewrite app_nil_r in Hev. subst es. rewrite befores_tree in Hnd.
    assert (Hiff : forall n, n ∈ nodes_of t <-> n < length ps).
    { intros n. split; [|apply Hall]. intros Hn. apply Hback. by rewrite befores_tree. }
    exists t. split; [done|]. split; [done|]. split; [|done].
    eapply tree_of_spans; [done|by rewrite Hroot|done|done|done|constructor].
  Qed.
End spanning.
