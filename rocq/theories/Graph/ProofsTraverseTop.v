From Coq Require Import Sorted.
From stdpp Require Import list.
From Verif.Base Require Import Outcome ListLemmas.
From Verif.Graph Require Import Model Spec ModelTraverse SpecTraverse ProofsBase ProofsEmb ProofsCount ProofsTraverse ProofsTraverseEdges
  ProofsTraverseBfs ProofsTraverseDfs ProofsTop.
Local Open Scope res_scope.

Section top.
  Context (W : Type).
  Implicit Types g : graph W.

  Lemma traverse_nodes fl sr cap find_all start g :
    in_range g -> roomy cap (order g) -> search_ok sr -> start < order g ->
    exists es, traverse fl sr cap find_all start g = Ok es
      /\ NoDup (befores es) /\ afters es = befores es /\ head (befores es) = Some start
      /\ forall n, n ∈ befores es <-> wanted g find_all start n.
  Proof.
    intros Hin Hcap Hsr Hs. destruct (traverse_tour g fl sr cap Hin Hcap Hsr find_all start Hs) as (vs & Ht & Hn & Hh & Hw & _ & _).
    eexists. split; [exact Ht|]. destruct (tour_events g fl sr [] vs) as (-> & -> & _). done.
  Qed.

  Lemma traverse_nowhere fl sr cap find_all start g :
    order g <= start -> traverse fl sr cap find_all start g = Ok [] /\ traverse_dfs find_all start g = Ok [].
  Proof. unfold traverse, traverse_dfs, order. intros H. destruct (Nat.ltb_spec start (length g)); [lia|done]. Qed.

  Lemma traverse_visits fl sr cap find_all start g es :
    in_range g -> roomy cap (order g) -> search_ok sr -> start < order g ->
    traverse fl sr cap find_all start g = Ok es ->
    exists bs, es = concat bs /\ Forall2 (visit_of g sr) (befores es) bs.
  Proof.
    intros Hin Hcap Hsr Hs He. destruct (traverse_tour g fl sr cap Hin Hcap Hsr find_all start Hs) as (vs & Ht & _).
    rewrite Ht in He. injection He as <-. destruct (tour_events g fl sr [] vs) as (-> & _). apply tour_visits.
  Qed.

  Lemma traverse_edges_once fl sr cap find_all start g es :
    in_range g -> roomy cap (order g) -> search_ok sr -> start < order g ->
    traverse fl sr cap find_all start g = Ok es ->
    NoDup (edges_met es) /\ forall n k, (n, k) ∈ edges_met es <-> wanted g find_all start n /\ is_Some (row g n !! k).
  Proof.
    intros Hin Hcap Hsr Hs He. destruct (traverse_tour g fl sr cap Hin Hcap Hsr find_all start Hs) as (vs & Ht & Hn & _ & Hw & _).
    rewrite Ht in He. injection He as <-. destruct (tour_edges_once g fl sr [] vs Hn) as [H1 H2]. split; [done|].
    intros n k. by rewrite H2, Hw.
  Qed.

  Lemma traverse_directed sr cap find_all start g es n k :
    in_range g -> roomy cap (order g) -> search_ok sr -> start < order g ->
    traverse Directed sr cap find_all start g = Ok es -> Second n k ∉ es.
  Proof.
    intros Hin Hcap Hsr Hs He. destruct (traverse_tour g Directed sr cap Hin Hcap Hsr find_all start Hs) as (vs & Ht & _).
    rewrite Ht in He. injection He as <-. by apply tour_directed.
  Qed.

  Lemma traverse_links fl sr cap find_all start g es i j :
    fl <> Directed -> in_range g -> roomy cap (order g) -> search_ok sr -> start < order g ->
    traverse fl sr cap find_all start g = Ok es ->
    wanted g find_all start i -> wanted g find_all start j -> i <> j ->
    (forall k k' e e', row g i !! k = Some e -> tgt e = j -> row g j !! k' = Some e' -> tgt e' = i ->
      precedes es (First i k) (Second j k'))
    \/ (forall k k' e e', row g j !! k = Some e -> tgt e = i -> row g i !! k' = Some e' -> tgt e' = j ->
      precedes es (First j k) (Second i k')).
  Proof.
    intros Hfl Hin Hcap Hsr Hs He Hi Hj Hij. destruct (traverse_tour g fl sr cap Hin Hcap Hsr find_all start Hs) as (vs & Ht & Hn & _ & Hw & _).
    rewrite Ht in He. injection He as <-. apply (tour_links g fl sr vs i j Hfl Hn); [by apply Hw..|done].
  Qed.

  Lemma traverse_loops (Weq : EqDecision W) sr cap find_all start g es n :
    reciprocal g -> roomy cap (order g) -> search_ok sr -> start < order g ->
    traverse Undirected sr cap find_all start g = Ok es -> wanted g find_all start n ->
    Nat.Even (length (loops g sr n))
    /\ forall a k k', loops g sr n !! (2 * a) = Some k -> loops g sr n !! (2 * a + 1) = Some k' ->
         precedes es (First n k) (Second n k').
  Proof.
    intros Hrec Hcap Hsr Hs He Hn'. destruct (traverse_tour g Undirected sr cap (proj1 Hrec) Hcap Hsr find_all start Hs) as (vs & Ht & Hn & _ & Hw & _).
    rewrite Ht in He. injection He as <-. split; [rewrite loops_length; by apply links_even|].
    intros a k k' Hk Hk'. apply (tour_loops g Undirected sr vs n a k k'); [done|done|by apply Hw|done|done].
  Qed.

  Lemma traverse_embedded sr cap find_all start g es n k e :
    comp_ok g -> roomy cap (order g) -> search_ok sr -> sr <> PseudoDepthFirst -> start < order g ->
    traverse Embedded sr cap find_all start g = Ok es -> wanted g find_all start n -> row g n !! k = Some e ->
    precedes es (First n k) (Second (tgt e) (comp e)) \/ precedes es (First (tgt e) (comp e)) (Second n k).
  Proof.
    intros Hok Hcap Hsr Hpd Hs He Hn' Hk. assert (Hin : in_range g) by by apply comp_ok_in_range.
    destruct (traverse_tour g Embedded sr cap Hin Hcap Hsr find_all start Hs) as (vs & Ht & Hn & _ & Hw & _ & Hc).
    rewrite Ht in He. injection He as <-. destruct (Hok n k e Hk) as (e' & He' & Ht' & Hc' & _ & Hne).
    apply Hw in Hn'. destruct (decide (tgt e = n)) as [Heq|Hd].
    - rewrite Heq in *. assert (Hcne : comp e <> k) by congruence.
      destruct (decide (k < comp e)) as [Hlt|Hge]; [left|right].
      + by apply (tour_loops_embedded g Embedded sr vs n k e).
      + rewrite <- Hc'. apply (tour_loops_embedded g Embedded sr vs n (comp e) e'); try done. lia.
    - assert (Htv : tgt e ∈ vs). { apply (Hc n e); [done|]. by eapply elem_of_list_lookup_2. }
      destruct (tour_links g Embedded sr vs n (tgt e) ltac:(done) Hn Hn' Htv ltac:(done)) as [H|H]; [left|right].
      + by apply (H k (comp e) e e').
      + by apply (H (comp e) k e' e).
  Qed.

  Lemma traverse_bfs_distance fl cap find_all start g es i j u v a b :
    in_range g -> roomy cap (order g) -> start < order g ->
    traverse fl BreadthFirst cap find_all start g = Ok es ->
    befores es !! i = Some u -> befores es !! j = Some v -> i <= j ->
    distance g start u a -> distance g start v b -> a <= b.
  Proof. intros Hin Hcap. by apply bfs_distance. Qed.

  Lemma traverse_bfs_unreachable fl cap find_all start g es i j u v :
    in_range g -> roomy cap (order g) -> start < order g ->
    traverse fl BreadthFirst cap find_all start g = Ok es ->
    befores es !! i = Some u -> befores es !! j = Some v -> i <= j ->
    reaches g start v -> reaches g start u.
  Proof. intros Hin Hcap. by apply bfs_unreachable. Qed.

  Lemma traverse_depth_first find_all start g :
    in_range g -> start < order g ->
    exists es ts, traverse_dfs find_all start g = Ok es
      /\ es = concat (map tree_events ts) /\ Forall (tree_of g) ts /\ root <$> head ts = Some start
      /\ (find_all = false -> length ts = 1)
      /\ NoDup (befores es) /\ (forall n, n ∈ befores es <-> wanted g find_all start n)
      /\ afters es ≡ₚ befores es
      /\ (forall u e, u ∈ befores es -> e ∈ row g u -> precedes es (Before (tgt e)) (After u)).
  Proof. intros Hin. by apply traverse_dfs_ok. Qed.

  Lemma traverse_dfs_nodes find_all start g :
    in_range g -> start < order g ->
    exists es, traverse_dfs find_all start g = Ok es
      /\ NoDup (befores es) /\ afters es ≡ₚ befores es
      /\ forall n, n ∈ befores es <-> wanted g find_all start n.
  Proof.
    intros Hin Hs. destruct (traverse_depth_first find_all start g Hin Hs) as (es & ts & H1 & _ & _ & _ & _ & H2 & H3 & H4 & _).
    by exists es.
  Qed.
End top.

(** *** Witnesses *)

Lemma pdfs_embedded_loop : exists (g : graph nat) es n k e,
  reachable Embedded [] g /\ traverse Embedded PseudoDepthFirst None true 0 g = Ok es
  /\ row g n !! k = Some e
  /\ First n k ∈ es /\ First (tgt e) (comp e) ∈ es /\ Second n k ∉ es /\ Second (tgt e) (comp e) ∉ es.
Proof.
  exists [[Edge 0 1 5; Edge 0 0 5]]. eexists. exists 0, 0, (Edge 0 1 5).
  split. { run (@AddNode nat); [done|]. run (Join 0 0 5); [done|]. apply reach_refl. }
  split; [vm_compute; reflexivity|]. split; [done|]. rewrite !elem_of_list_In. cbn. intuition (try congruence).
Qed.

Lemma pdfs_embedded_loop_second : exists (g : graph nat) es n k e,
  reachable Embedded [] g /\ traverse Embedded PseudoDepthFirst None true 0 g = Ok es
  /\ row g n !! k = Some e
  /\ Second n k ∈ es /\ Second (tgt e) (comp e) ∈ es /\ First n k ∉ es /\ First (tgt e) (comp e) ∉ es.
Proof.
  exists [[Edge 0 1 5; Edge 0 0 5; Edge 1 0 7; Edge 1 1 7]; [Edge 0 2 7; Edge 0 3 7]]. eexists. exists 0, 0, (Edge 0 1 5).
  split. { run (@AddNode nat); [done|]. run (@AddNode nat); [done|]. run (Join 0 0 5); [done|]. run (Join 0 1 7); [done|].
    run (Join 0 1 7); [done|]. apply reach_refl. }
  split; [vm_compute; reflexivity|]. split; [done|]. rewrite !elem_of_list_In. cbn. intuition (try congruence).
Qed.

Lemma undirected_loop_weights : exists (g : graph nat) es,
  reachable Undirected [] g /\ traverse Undirected BreadthFirst None true 0 g = Ok es
  /\ count g 0 0 5 = 2 /\ count g 0 0 7 = 2
  /\ (forall k e, row g 0 !! k = Some e -> wt e = 5 -> First 0 k ∈ es /\ Second 0 k ∉ es)
  /\ (forall k e, row g 0 !! k = Some e -> wt e = 7 -> Second 0 k ∈ es /\ First 0 k ∉ es).
Proof.
  exists [[Edge 0 0 5; Edge 0 0 7; Edge 0 0 5; Edge 0 0 7]]. eexists.
  split. { run (@AddNode nat); [done|]. run (Join 0 0 5); [done|]. run (Join 0 0 7); [done|].
    run (SwapEdges (W := nat) 0 1 2); [done|]. apply reach_refl. }
  split; [vm_compute; reflexivity|]. split; [done|]. split; [done|]. setoid_rewrite elem_of_list_In.
  split; intros k e; (do 4 (destruct k as [|k]; [intros [= <-]; cbn; intuition (try congruence)|])); done.
Qed.

Lemma dfs_skips_edges : exists (g : graph nat) es n k,
  reachable Directed [] g /\ traverse_dfs true 0 g = Ok es /\ is_Some (row g n !! k) /\ (n, k) ∉ edges_met es.
Proof.
  exists [[Edge 0 0 5]]. eexists. exists 0, 0.
  split. { run (@AddNode nat); [done|]. run (Join 0 0 5); [done|]. apply reach_refl. }
  split; [vm_compute; reflexivity|]. split; [by eexists|]. rewrite elem_of_list_In. cbn. tauto.
Qed.

(** Two nodes which are joined twice, the second of them with a loop, and a triangle; a node by itself. *)
Definition ex_traverse : graph nat :=
  [[Edge 1 0 7; Edge 2 0 8]; [Edge 0 0 7; Edge 2 1 9]; [Edge 0 1 8; Edge 1 1 9; Edge 2 3 6; Edge 2 2 6]; []].

Lemma ex_traverse_reached : reachable Embedded [] ex_traverse.
Proof.
  run (@AddNode nat); [done|]. run (@AddNode nat); [done|]. run (@AddNode nat); [done|]. run (@AddNode nat); [done|].
  run (Join 0 1 7); [done|]. run (Join 0 2 8); [done|]. run (Join 1 2 9); [done|]. run (Join 2 2 6); [done|]. apply reach_refl.
Qed.

Lemma ex_traverse_ok : comp_ok ex_traverse /\ reciprocal ex_traverse /\ in_range ex_traverse.
Proof.
  assert (comp_ok ex_traverse) by (eapply (reachable_ok nat _ Embedded []); [by apply empty_ok|apply ex_traverse_reached]).
  split; [done|]. split; [by apply comp_ok_reciprocal|by apply comp_ok_in_range].
Qed.

Definition ex_calls : list event :=
  [Before 1; First 1 0; First 1 1; After 1;
   Before 0; Second 0 0; First 0 1; After 0;
   Before 2; Second 2 0; Second 2 1; First 2 2; Second 2 3; After 2].

Lemma ex_traverse_calls :
  traverse Embedded BreadthFirst (Some 4) false 1 ex_traverse = Ok ex_calls
  /\ traverse Undirected BreadthFirst None true 1 ex_traverse = Ok (ex_calls ++ [Before 3; After 3])
  /\ loops ex_traverse BreadthFirst 2 = [2; 3].
Proof. by vm_compute. Qed.

Lemma ex_distances : distance ex_traverse 1 1 0 /\ distance ex_traverse 1 2 1.
Proof.
  split; (split; [|intros d H; inversion H; subst; try lia]).
  - constructor.
  - change 2 with (tgt (Edge 2 1 9)). eapply path_step; [constructor|]. cbn. apply elem_of_cons. right. left.
Qed.

Lemma ex_traverse_dfs :
  traverse_dfs false 1 ex_traverse
  = Ok (tree_events (Node 1 [(0, Node 0 [(1, Node 2 [])])])).
Proof. by vm_compute. Qed.
