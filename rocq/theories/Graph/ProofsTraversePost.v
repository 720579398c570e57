(** The order in which depth first search leaves the nodes. *)
From Coq Require Import Sorted.
From stdpp Require Import list.
From Verif.Base Require Import Outcome ListLemmas.
From Verif.Graph Require Import Model Spec ModelTraverse SpecTraverse SpecSpan ProofsTraverse ProofsTraverseEdges ProofsTraverseDfs ProofsTraverseTop ProofsSpan.

Section post.
  Context {W : Type} (g : graph W).

  Lemma tree_reach t u : tree_of g t -> u ∈ nodes_of t -> reaches g (root t) u.
  Proof.
    induction t as [n bs IH] using tree_branch_ind. intros Ht Hu. inversion Ht as [n' bs' Hbs _ E1]. subst.
    cbn in Hu. apply elem_of_cons in Hu as [-> | Hu]; [exists 0; constructor|].
    apply elem_of_concat_map in Hu as (b & Hb & Hu). rewrite Forall_forall in Hbs. destruct (Hbs b Hb) as [He Hbt].
    destruct (row g n !! b.1) as [e|] eqn:Hr; [|done]. injection He as He.
    apply (reaches_through g n e); [by eapply elem_of_list_lookup_2|]. rewrite He. by apply IH.
  Qed.

  Definition related (es : list event) (m u : nat) : Prop :=
    m = u \/ reaches g m u \/ precedes es (After m) (After u) \/ precedes es (After u) (Before m).

  Lemma related_mid es l1 l2 m u : related es m u -> related (l1 ++ es ++ l2) m u.
  Proof. intros [? |[? |[? |?]]]; [by left|by right; left|right; right; left|right; right; right]; by apply precedes_mid. Qed.

  Lemma before_in t m : m ∈ nodes_of t -> Before m ∈ tree_events t.
  Proof. intros H. apply befores_elem. by rewrite befores_tree. Qed.
  Lemma after_in t m : m ∈ nodes_of t -> After m ∈ tree_events t.
  Proof. intros H. apply afters_elem. by rewrite afters_tree. Qed.

  Lemma branches_related n bs b1 b2 m u :
    (forall b, b ∈ bs -> forall m u, m ∈ nodes_of b.2 -> u ∈ nodes_of b.2 -> related (tree_events b.2) m u) ->
    b1 ∈ bs -> b2 ∈ bs -> m ∈ nodes_of b1.2 -> u ∈ nodes_of b2.2 -> related (branch_events n bs) m u.
  Proof.
    intros IH H1 H2 Hm Hu. induction bs as [|b bs IHbs]; [by apply elem_of_nil in H1|].
    assert (Hev : branch_events n (b :: bs) = (First n b.1 :: tree_events b.2) ++ branch_events n bs) by done.
    assert (Hin : forall c x, c ∈ bs -> x ∈ nodes_of c.2 -> Before x ∈ branch_events n bs /\ After x ∈ branch_events n bs).
    { intros c x Hc Hx. unfold branch_events. split; apply elem_of_concat_map; exists c; (split; [done|right]).
      - by apply before_in. - by apply after_in. }
    rewrite Hev. apply elem_of_cons in H1 as [E1|H1]; apply elem_of_cons in H2 as [E2|H2]; try subst b1; try subst b2.
    - change ((First n b.1 :: tree_events b.2) ++ branch_events n bs) with ([First n b.1] ++ tree_events b.2 ++ branch_events n bs).
      apply related_mid. apply IH; [left|done|done].
    - right; right; left. apply precedes_app; [right; by apply after_in|by apply (Hin b2 u)].
    - right; right; right. apply precedes_app; [right; by apply after_in|by apply (Hin b1 m)].
    - rewrite <- (app_nil_r (branch_events n bs)). apply related_mid. apply IHbs; [|done|done].
      intros c Hc. apply IH. by right.
  Qed.

  Lemma tree_related t m u : tree_of g t -> m ∈ nodes_of t -> u ∈ nodes_of t -> related (tree_events t) m u.
  Proof.
    revert m u. induction t as [n bs IH] using tree_branch_ind. intros m u Ht Hm Hu.
    pose proof (tree_reach _ _ Ht Hu) as Hr. inversion Ht as [n' bs' Hbs _ E1]. subst. rewrite Forall_forall in Hbs.
    cbn in Hm, Hu, Hr. apply elem_of_cons in Hm as [-> | Hm]; [right; by left|].
    apply elem_of_concat_map in Hm as (b1 & Hb1 & Hm). rewrite tree_events_node.
    apply elem_of_cons in Hu as [-> | Hu].
    - right; right; left. apply precedes_cons, precedes_app; [|left]. unfold branch_events. apply elem_of_concat_map.
      exists b1. split; [done|]. right. by apply after_in.
    - apply elem_of_concat_map in Hu as (b2 & Hb2 & Hu).
      change (Before n :: branch_events n bs ++ [After n]) with ([Before n] ++ branch_events n bs ++ [After n]).
      apply related_mid. apply (branches_related n bs b1 b2); [|done|done|done|done].
      intros b Hb m' u' Hm' Hu'. apply IH; [done| |done|done]. by apply Hbs.
  Qed.

  Lemma forest_related ts m u :
    Forall (tree_of g) ts -> (exists t, t ∈ ts /\ m ∈ nodes_of t) -> (exists t, t ∈ ts /\ u ∈ nodes_of t) ->
    related (concat (map tree_events ts)) m u.
  Proof.
    intros Hts (t1 & H1 & Hm) (t2 & H2 & Hu). induction ts as [|t ts IH]; [by apply elem_of_nil in H1|].
    apply Forall_cons in Hts as [Ht Hts]. cbn [map concat].
    assert (Hin : forall c x, c ∈ ts -> x ∈ nodes_of c -> Before x ∈ concat (map tree_events ts) /\ After x ∈ concat (map tree_events ts)).
    { intros c x Hc Hx. split; apply elem_of_concat_map; exists c; (split; [done|]). - by apply before_in. - by apply after_in. }
    apply elem_of_cons in H1 as [E1|H1]; apply elem_of_cons in H2 as [E2|H2]; try subst t1; try subst t2.
    - apply (related_mid _ []). by apply tree_related.
    - right; right; left. apply precedes_app; [by apply after_in|by apply (Hin t2 u)].
    - right; right; right. apply precedes_app; [by apply after_in|by apply (Hin t1 m)].
    - rewrite <- (app_nil_r (concat _)). apply related_mid. by apply IH.
  Qed.
End post.

Lemma split_once {A} (x : A) a b a' b' : x ∉ a -> x ∉ a' -> a ++ x :: b = a' ++ x :: b' -> a = a' /\ b = b'.
Proof.
  revert a'. induction a as [|y a IH]; intros [|y' a'] Ha Ha' H; cbn in H.
  - by injection H as ->.
  - injection H as -> _. exfalso. apply Ha'. left.
  - injection H as -> _. exfalso. apply Ha. left.
  - injection H as -> H. apply not_elem_of_cons in Ha as [_ Ha], Ha' as [_ Ha']. destruct (IH a' Ha Ha' H) as [-> ->]. done.
Qed.

Lemma no_both es m u : NoDup (befores es) -> NoDup (afters es) -> precedes es (Before m) (After u) -> ~ precedes es (After u) (Before m).
Proof.
  intros Hb Ha (l1 & l2 & l3 & E1) (k1 & k2 & k3 & E2).
  assert (Hnot : forall a b, es = a ++ Before m :: b -> Before m ∉ a).
  { intros a b -> Hin. rewrite befores_app in Hb. apply NoDup_app in Hb as (_ & Hb & _). apply (Hb m); [by apply befores_elem|]. left. }
  rewrite E1 in E2. change (k1 ++ After u :: k2 ++ Before m :: k3) with (k1 ++ (After u :: k2) ++ Before m :: k3) in E2.
  rewrite app_assoc in E2. apply split_once in E2 as [E2 _].
  - rewrite E1, E2, afters_app in Ha. apply NoDup_app in Ha as (_ & Ha & _). apply (Ha u); apply afters_elem.
    + apply elem_of_app. right. left.
    + right. apply elem_of_app. right. left.
  - by eapply Hnot.
  - intros Hin. eapply (Hnot (k1 ++ After u :: k2) k3); [|done]. rewrite E1, E2. by rewrite <- app_assoc.
Qed.

(** Depth first search leaves a node after those to which it has edges, unless these lead back to it. *)
Lemma dfs_post {W} find_all start (g : graph W) es : in_range g -> start < order g -> traverse_dfs find_all start g = Ok es ->
  NoDup (afters es) /\ (forall n, n ∈ afters es <-> wanted g find_all start n) /\
  forall u e, u ∈ afters es -> e ∈ row g u -> precedes es (After (tgt e)) (After u) \/ reaches g (tgt e) u.
Proof.
  intros Hin Hs He. destruct (traverse_depth_first _ find_all start g Hin Hs) as (es' & ts & He' & Hts & Htree & _ & _ & Hnd & Hw & Hab & Hed).
  assert (es' = es) as -> by congruence. split; [by rewrite Hab|]. split; [intros n; by rewrite Hab|].
  intros u e Hu Her. rewrite Hab in Hu. specialize (Hed u e Hu Her).
  assert (Hnodes : forall n, n ∈ befores es -> exists t, t ∈ ts /\ n ∈ nodes_of t).
  { intros n Hn. apply befores_elem in Hn. rewrite Hts in Hn. apply elem_of_concat_map in Hn as (t & Ht & Hn). exists t. split; [done|].
    rewrite <- befores_tree. by apply befores_elem. }
  assert (Ht : tgt e ∈ befores es).
  { apply befores_elem. destruct Hed as (l1 & l2 & l3 & ->). apply elem_of_app. right. left. }
  destruct (forest_related g ts (tgt e) u Htree (Hnodes _ Ht) (Hnodes _ Hu)) as [E|[?|[?|Hp]]].
  - right. rewrite E. exists 0. constructor.
  - by right.
  - left. by rewrite Hts.
  - exfalso. rewrite <- Hts in Hp. revert Hp. apply no_both; [done|by rewrite Hab|done].
Qed.
