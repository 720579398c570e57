From Coq Require Import Sorted.
From stdpp Require Import list list_numbers.
From Verif.Base Require Import Outcome ListLemmas.
From Verif.Graph Require Import Model ModelWeighted Spec SpecWeighted ModelTree SpecTree ProofsBase ProofsCount ProofsEmb ProofsPartial
  ProofsTop ProofsInduced ProofsPrune ProofsPruneBack ProofsTree.
Local Open Scope res_scope.

#[local] Instance flavour_eq_dec : EqDecision flavour.
Proof. solve_decision. Defined.
#[local] Instance direction_eq_dec : EqDecision direction.
Proof. solve_decision. Defined.

(** *** The parents once a node has been put in *)

Section grow.
  Context (ps : list (option nat)) (n : nat) (par : option nat) (Hn : n <= length ps).

  Lemma grow_length : length (grow ps n par) = S (length ps).
  Proof. unfold grow. rewrite app_length. cbn. rewrite !map_length, take_length, drop_length. lia. Qed.

  Lemma grow_new : grow ps n par !! n = Some par.
  Proof. unfold grow. rewrite lookup_app_r; rewrite map_length, take_length; [|lia]. by replace (n - n `min` length ps) with 0 by lia. Qed.

  Lemma grow_old i : grow ps n par !! up n i = option_map (up n) <$> ps !! i.
  Proof.
    unfold grow. assert (Hl : length (map (option_map (up n)) (take n ps)) = n) by (rewrite map_length, take_length; lia).
    assert (Hu : up n i = if decide (n <= i) then i + 1 else i) by done. rewrite Hu. destruct (decide (n <= i)).
    - rewrite lookup_app_r by lia. rewrite Hl. replace (i + 1 - n) with (S (i - n)) by lia.
      change (map (option_map (up n)) (drop n ps) !! (i - n) = option_map (up n) <$> ps !! i). rewrite list_lookup_fmap, lookup_drop. by replace (n + (i - n)) with i by lia.
    - rewrite lookup_app_l by lia. rewrite list_lookup_fmap, lookup_take by lia. done.
  Qed.

  Lemma grow_cases c : c < S (length ps) -> c = n \/ exists i, c = up n i /\ i < length ps.
  Proof.
    intros Hc. destruct (decide (c = n)) as [->|Hne]; [by left|right]. exists (down n c). split; [by rewrite up_down|].
    pose proof (down_lt n c (S (length ps))). lia.
  Qed.

  Lemma grow_some c p : grow ps n par !! c = Some (Some p) <->
    (c = n /\ par = Some p) \/ exists i q, c = up n i /\ p = up n q /\ ps !! i = Some (Some q).
  Proof.
    split.
    - intros H. destruct (grow_cases c) as [->|(i & -> & Hi)].
      + apply lookup_lt_Some in H. by rewrite grow_length in H.
      + left. rewrite grow_new in H. split; [done|congruence].
      + right. rewrite grow_old in H. destruct (ps !! i) as [[q|]|] eqn:E; cbn in H; [|done..]. injection H as <-. by exists i, q.
    - intros [[-> <-]|(i & q & -> & -> & H)]; [apply grow_new|]. by rewrite grow_old, H.
  Qed.

  Lemma grow_parent_new : parent_of (grow ps n par) n = match par with Some p => [p] | None => [] end.
  Proof. unfold parent_of. rewrite grow_new. by destruct par. Qed.

  Lemma grow_parent_old i : parent_of (grow ps n par) (up n i) = map (up n) (parent_of ps i).
  Proof. unfold parent_of. rewrite grow_old. by destruct (ps !! i) as [[q|]|]. Qed.

  Lemma grow_children_new : par <> Some n -> children_of (grow ps n par) n = [].
  Proof.
    intros Hp. destruct (children_of (grow ps n par) n) as [|c l] eqn:E; [done|]. exfalso.
    assert (Hc : c ∈ children_of (grow ps n par) n) by (rewrite E; left). apply children_elem, grow_some in Hc as [[_ ?]|(i & q & _ & Hq & _)]; [done|].
    by apply (up_ne n q).
  Qed.

  Lemma grow_children_old i : children_of (grow ps n par) (up n i) ≡ₚ map (up n) (children_of ps i) ++ (if decide (par = Some (up n i)) then [n] else []).
  Proof.
    apply NoDup_Permutation.
    - apply NoDup_filter, NoDup_seq.
    - apply NoDup_app. split; [|split].
      + apply NoDup_fmap_2; [intros a b; apply up_inj|]. apply NoDup_filter, NoDup_seq.
      + intros x (y & -> & _)%elem_of_list_fmap. destruct (decide _); [|apply not_elem_of_nil]. rewrite elem_of_list_singleton. apply up_ne.
      + destruct (decide _); [apply NoDup_singleton|constructor].
    - intros c. rewrite children_elem, grow_some, elem_of_app, elem_of_list_fmap. split.
      + intros [[-> Hpar]|(j & q & -> & Hq & Hj)]; [right; rewrite decide_True by done; by left|left].
        exists j. split; [done|]. apply children_elem. apply up_inj in Hq as ->. done.
      + intros [(j & -> & Hj)|Hin].
        * right. exists j, i. split; [done|]. split; [done|]. by apply children_elem.
        * left. destruct (decide _); [|by apply elem_of_nil in Hin]. apply elem_of_list_singleton in Hin as ->. done.
  Qed.

  Lemma grow_anc x a : anc ps x a -> anc (grow ps n par) (up n x) (up n a).
  Proof.
    induction 1 as [x Hx|x p a Hp _ IH].
    - apply anc_refl. rewrite grow_length. by apply up_lt.
    - eapply anc_up; [|exact IH]. rewrite grow_old, Hp. done.
  Qed.
End grow.

Lemma grow_tree ps n parent :
  tree_shaped ps -> n <= length ps -> (ps = [] \/ (parent <= length ps /\ parent <> n)) ->
  tree_shaped (grow ps n (requested ps parent)).
Proof.
  intros Hsh Hn Hp. right. destruct Hsh as [->|(r & Hr & Hall)].
  - exists 0. assert (n = 0) as -> by (cbn in Hn; lia). split; [done|]. intros m Hm. cbn in Hm. assert (m = 0) as -> by lia. by apply anc_refl.
  - assert (Hne : ps <> []) by (by intros ->). destruct Hp as [|[Hp1 Hp2]]; [done|].
    assert (Hreq : requested ps parent = Some parent) by (by destruct ps). rewrite Hreq. exists (up n r).
    split; [by rewrite grow_old, Hr|]. intros m Hm. rewrite grow_length in Hm by done.
    assert (Hold : forall i, i < length ps -> anc (grow ps n (Some parent)) (up n i) (up n r)) by (intros i Hi; by apply grow_anc, Hall).
    destruct (grow_cases ps n Hn m Hm) as [->|(i & -> & Hi)]; [|by apply Hold].
    destruct (grow_cases ps n Hn parent ltac:(lia)) as [|(i & -> & Hi)]; [done|].
    eapply anc_up; [by apply grow_new|by apply Hold].
Qed.

Lemma grow_ordered ps n parent :
  ordered ps -> n <= length ps -> (ps = [] \/ parent < n) -> ordered (grow ps n (requested ps parent)).
Proof.
  intros Ho Hn Hp c p Hc. apply grow_some in Hc as [[-> Hr]|(i & q & -> & -> & Hi)]; [| |done].
  - destruct Hp as [->|Hp]; [done|]. destruct ps; [done|]. injection Hr as <-. done.
  - specialize (Ho _ _ Hi). unfold up. repeat destruct (decide _); lia.
Qed.

Section insert.
  Context {W V : Type} `{!EqDecision W}.
  Implicit Types g : wgraph W V.
  Implicit Types h : graph W.

  Lemma tgt_bare (r : list (edge W)) : map tgt r = map fst (bare r).
  Proof. unfold bare. rewrite map_map. done. Qed.

  Lemma join_targets fl a b w h :
    graph_ok fl h -> a < length h -> b < length h -> a <> b ->
    exists h', join fl a b w h = Ok h' /\ graph_ok fl h' /\ length h' = length h
      /\ forall i, map tgt (row h' i) = map tgt (row h i) ++ (if decide (i = a) then [b] else [])
            ++ (if decide (fl <> Directed /\ i = b) then [a] else []).
  Proof.
    intros Hok Ha Hb Hab.
    assert (Hex : exists h', join fl a b w h = Ok h' /\ length h' = length h
      /\ forall i, map tgt (row h' i) = map tgt (row h i) ++ (if decide (i = a) then [b] else []) ++ (if decide (fl <> Directed /\ i = b) then [a] else [])).
    { destruct fl.
      - rewrite join_directed by done. eexists. split; [done|]. split; [apply insert_length|]. intros i.
        rewrite (decide_False (P := Directed <> Directed /\ i = b)) by (by intros [? _]). rewrite app_nil_r.
        destruct (decide (i = a)) as [->|Hne]; [by rewrite row_insert_eq, map_app|by rewrite row_insert_ne, app_nil_r].
      - rewrite join_undirected by done. eexists. split; [done|]. split; [by rewrite !insert_length|]. intros i.
        destruct (decide (i = b)) as [->|Hnb].
        + rewrite row_insert_eq by (by rewrite insert_length). rewrite row_insert_ne by done. rewrite (decide_False (P := b = a)) by done.
          rewrite decide_True by done. by rewrite map_app.
        + rewrite row_insert_ne by (done || by rewrite insert_length). rewrite (decide_False (P := Undirected <> Directed /\ i = b)) by (by intros [_ ?]).
          rewrite app_nil_r. destruct (decide (i = a)) as [->|Hne]; [by rewrite row_insert_eq, map_app|by rewrite row_insert_ne, app_nil_r].
      - destruct (join_embedded_ok a b w h Hok Ha Hb) as (h' & H1 & _ & H2 & H3). exists h'. split; [done|]. split; [done|].
        intros i. rewrite !tgt_bare, H3, !map_app. f_equal. f_equal; [by destruct (decide (i = a))|].
        destruct (decide (i = b)); [rewrite decide_True by done|rewrite decide_False by (by intros [_ ?])]; done. }
    destruct Hex as (h' & Hj & Hl & Ht). exists h'. split; [done|]. split; [|done].
    by apply (step_ok fl (Join a b w) h h').
  Qed.

  (** A new node [n] is linked to its parent. *)
  Lemma link_tree d h h' ps n parent :
    n <= length ps -> ps <> [] -> parent <= length ps -> parent <> n ->
    tree_rep d h ps -> length h' = S (length ps) ->
    (forall i, i < length ps -> map tgt (row h' (up n i)) = map (up n) (map tgt (row h i))
        ++ (if decide (d <> Backward /\ parent = up n i) then [n] else [])) ->
    map tgt (row h' n) = (if decide (d <> Forward) then [parent] else []) ->
    tree_rep d h' (grow ps n (requested ps parent))
    /\ (d = Symmetric -> parent_first h ps -> parent_first h' (grow ps n (requested ps parent))).
  Proof.
    intros Hn Hne Hp1 Hp2 [Hl Hr] Hl' Hold Hnew. assert (Hreq : requested ps parent = Some parent) by (by destruct ps). rewrite Hreq. split.
    - split; [by rewrite grow_length|]. intros m Hm. rewrite grow_length in Hm by done. destruct (grow_cases ps n Hn m Hm) as [->|(i & -> & Hi)].
      + rewrite Hnew, grow_parent_new by done. rewrite grow_children_new by (done || congruence).
        destruct d; [rewrite decide_False by (by intros ?)|rewrite decide_True by done..]; done.
      + rewrite Hold by done. rewrite grow_parent_old by done. specialize (Hr i Hi).
        assert (Hdec : (if decide (Some parent = Some (up n i)) then [n] else []) = (if decide (parent = up n i) then [n] else [])).
        { destruct (decide (parent = up n i)) as [->|]; [by rewrite decide_True|by rewrite decide_False by congruence]. }
        destruct d.
        * rewrite grow_children_old by done. rewrite Hdec, Hr.
          destruct (decide (parent = up n i)); [rewrite decide_True by done|rewrite decide_False by (by intros [_ ?])]; done.
        * rewrite decide_False by (by intros [? _]). by rewrite Hr, app_nil_r.
        * rewrite grow_children_old by done. rewrite Hdec, Hr, map_app, <- app_assoc.
          destruct (decide (parent = up n i)); [rewrite decide_True by done|rewrite decide_False by (by intros [_ ?])]; done.
    - intros -> Hpf c p Hc. apply grow_some in Hc as [[-> Hr1]|(i & q & -> & -> & Hi)]; [| |done].
      + injection Hr1 as <-. rewrite Hnew, decide_True by done. done.
      + rewrite Hold by by apply lookup_lt_Some in Hi. specialize (Hpf i q Hi). destruct (map tgt (row h i)); [done|]. cbn in *. congruence.
  Qed.

  Lemma insert_tree fl d w g ps pos parent v :
    tree_flavour fl d -> consistent fl g -> tree_rep d (edges g) ps ->
    (ps = [] \/ (parent <= length ps /\ parent <> Nat.min pos (length ps))) ->
    exists g', let n := Nat.min pos (length ps) in
      insert_node_to_tree fl d w pos parent v g = (n, Ok (Done g'))
      /\ consistent fl g'
      /\ tree_rep d (edges g') (grow ps n (requested ps parent))
      /\ (d = Symmetric -> parent_first (edges g) ps -> parent_first (edges g') (grow ps n (requested ps parent)))
      /\ weights g' = take n (weights g) ++ v :: drop n (weights g).
  Proof.
    intros Hfl [Hok Hw] Hrep Hp. assert (HN : order (edges g) = length ps) by apply Hrep. cbn zeta.
    unfold insert_node_to_tree, insert_node_w. rewrite HN. set (n := Nat.min pos (length ps)) in *.
    assert (Hn : n <= length ps) by (unfold n; lia).
    destruct (insert_node_all W _ fl (edges g) n Hok) as [Hi Hok1]. rewrite HN, Nat.min_l in Hi by done.
    set (h1 := insert_node n (edges g)) in *. destruct Hi as (Hl1 & Hrn & Hro). fold (order (edges g)) in Hl1, Hro.
    set (ws := take n (weights g) ++ v :: drop n (weights g)). cbn [obind edges].
    assert (Hws : length ws = S (length ps)).
    { unfold ws. rewrite app_length. cbn. rewrite take_length, drop_length. lia. }
    unfold order at 1. rewrite Hl1, HN. destruct ps as [|o ps'] eqn:Eps.
    { cbn [length Nat.ltb Nat.leb]. eexists. split; [done|]. unfold order in *. cbn [edges weights].
      assert (Hn0 : n = 0) by (cbn in Hn; lia). rewrite Hn0 in *. split; [split; [done|unfold order; cbn in *; lia]|].
      split; [|split; [|done]].
      - split; [cbn in *; lia|]. intros m Hm. cbn in Hm. assert (m = 0) as -> by lia. cbn [edges] in *. rewrite Hrn. destruct d; done.
      - intros _ _ c p Hc. destruct c as [|c]; [done|]. apply lookup_lt_Some in Hc. cbn in Hc. lia. }
    rewrite <- Eps in *. assert (Hpos : 0 < length ps) by (rewrite Eps; cbn; lia).
    destruct (Nat.ltb_spec 1 (S (length ps))); [|lia]. assert (Hne : ps <> []) by (by rewrite Eps).
    destruct Hp as [|[Hp1 Hp2]]; [done|].
    assert (Hrow : forall i, i < length ps -> map tgt (row h1 (up n i)) = map (up n) (map tgt (row (edges g) i))).
    { intros i Hlt. rewrite Hro by lia. by rewrite !map_map. }
    unfold join_w, edges_w. cbn [edges weights].
    assert (Hfin : forall h', graph_ok fl h' -> length h' = S (length ps) ->
      (forall i, i < length ps -> map tgt (row h' (up n i)) = map (up n) (map tgt (row (edges g) i))
        ++ (if decide (d <> Backward /\ parent = up n i) then [n] else [])) ->
      map tgt (row h' n) = (if decide (d <> Forward) then [parent] else []) ->
      exists g', (n, Ok (Done (WGraph h' ws))) = (n, Ok (Done g')) /\ consistent fl g'
        /\ tree_rep d (edges g') (grow ps n (requested ps parent))
        /\ (d = Symmetric -> parent_first (edges g) ps -> parent_first (edges g') (grow ps n (requested ps parent)))
        /\ weights g' = ws).
    { intros h' Hok' Hl' Ho' Hn'. eexists. split; [done|]. cbn [edges weights]. split; [split; [done|unfold order; cbn; lia]|].
      destruct (link_tree d (edges g) h' ps n parent) as [HA HB]; try done. }
    assert (Hlt : n < length h1 /\ parent < length h1) by lia. destruct Hlt as [Hlt1 Hlt2].
    assert (Hup : forall i, up n i <> n) by apply up_ne.
    destruct d; cbn [obind edges weights].
    - assert (fl = Directed) as -> by (destruct Hfl; done). destruct (join_targets Directed parent n w h1) as (h2 & -> & Hok2 & Hl2 & Ht2); [done..|].
      apply Hfin; [done|lia| |].
      + intros i Hlt. rewrite Ht2, Hrow by done. f_equal. rewrite (decide_False (P := Directed <> Directed /\ up n i = n)) by (by intros [? _]). rewrite app_nil_r.
        destruct (decide (up n i = parent)) as [<-|]; [by rewrite decide_True|]. rewrite decide_False; [done|]. by intros [_ ->].
      + rewrite Ht2, Hrn. rewrite decide_False by done. rewrite decide_False by (by intros [? _]). by rewrite decide_False by (by intros ?).
    - assert (fl = Directed) as -> by (destruct Hfl; done). destruct (join_targets Directed n parent w h1) as (h2 & -> & Hok2 & Hl2 & Ht2); [done..|].
      apply Hfin; [done|lia| |].
      + intros i Hlt. rewrite Ht2, Hrow by done. f_equal. rewrite (decide_False (P := up n i = n)) by done. 
        rewrite decide_False by (by intros [? _]). by rewrite decide_False by (by intros [? _]).
      + rewrite Ht2, Hrn. rewrite decide_True by done. rewrite decide_False by (by intros [? _]). by rewrite decide_True.
    - destruct (decide (fl = Directed)) as [->|Hnd].
      + destruct (join_targets Directed n parent w h1) as (h2 & -> & Hok2 & Hl2 & Ht2); [done..|]. cbn [obind edges weights].
        assert (Hdd : forall (x y : nat) (l l' : list nat), (if decide (Directed <> Directed /\ x = y) then l else l') = l').
        { intros x y l l'. rewrite decide_False; [done|]. by intros [? _]. }
        destruct (join_targets Directed parent n w h2) as (h3 & -> & Hok3 & Hl3 & Ht3); [done|lia|lia|done|].
        apply Hfin; [done|lia| |].
        * intros i Hlt. rewrite Ht3, Ht2, Hrow by done. rewrite (decide_False (P := up n i = n)) by done.
          rewrite !Hdd. cbn. rewrite !app_nil_r. f_equal.
          destruct (decide (up n i = parent)) as [<-|]; [by rewrite decide_True|]. rewrite decide_False; [done|]. by intros [_ ->].
        * rewrite Ht3, Ht2, Hrn. rewrite decide_True by done. rewrite !Hdd.
          rewrite decide_False by done. by rewrite decide_True.
      + assert (Hm : forall A (a b : A), (match fl with Directed => a | _ => b end) = b) by (by destruct fl). rewrite Hm. cbn [obind edges weights].
        destruct (join_targets fl parent n w h1) as (h2 & -> & Hok2 & Hl2 & Ht2); [done..|].
        apply Hfin; [done|lia| |].
        * intros i Hlt. rewrite Ht2, Hrow by done. f_equal. rewrite (decide_False (P := fl <> Directed /\ up n i = n)) by (by intros [_ ?%Hup]). rewrite app_nil_r.
          destruct (decide (up n i = parent)) as [<-|]; [by rewrite decide_True|]. rewrite decide_False; [done|]. by intros [_ ->].
        * rewrite Ht2, Hrn. rewrite decide_False by done. rewrite decide_True by done. by rewrite decide_True.
  Qed.

  (** *** Counting *)

  Lemma list_sum_cons x (l : list nat) : list_sum (x :: l) = x + list_sum l.
  Proof. done. Qed.

  Lemma sum_indicator N p : p < N -> list_sum (map (fun n => if decide (p = n) then 1 else 0) (seq 0 N)) = 1.
  Proof.
    assert (Hz : forall a N, (p < a \/ a + N <= p) -> list_sum (map (fun n => if decide (p = n) then 1 else 0) (seq a N)) = 0).
    { intros a M. revert a. induction M as [|M IH]; intros a Ha; [done|]. cbn [seq map]. rewrite list_sum_cons, decide_False by lia. rewrite IH by lia. done. }
    assert (Ho : forall a N, a <= p < a + N -> list_sum (map (fun n => if decide (p = n) then 1 else 0) (seq a N)) = 1).
    { intros a M. revert a. induction M as [|M IH]; intros a Ha; [lia|]. cbn [seq map]. rewrite list_sum_cons. destruct (decide (p = a)) as [->|].
      - rewrite Hz by lia. done.
      - rewrite IH by lia. done. }
    intros Hp. apply Ho. lia.
  Qed.

  Lemma list_sum_map_add (f k : nat -> nat) l : list_sum (map (fun n => f n + k n) l) = list_sum (map f l) + list_sum (map k l).
  Proof. induction l as [|x l IH]; [done|]. cbn [map]. rewrite !list_sum_cons, IH. lia. Qed.

  Lemma list_sum_map_ext (f k : nat -> nat) l : (forall x, x ∈ l -> f x = k x) -> list_sum (map f l) = list_sum (map k l).
  Proof.
    induction l as [|x l IH]; intros H; [done|]. cbn [map]. rewrite !list_sum_cons, (H x), IH; [done| |left]. intros y Hy. apply H. by right.
  Qed.

  Lemma sum_zero (l : list nat) : list_sum (map (fun _ => 0) l) = 0.
  Proof. induction l as [|x l IH]; [done|]. cbn [map]. by rewrite list_sum_cons, IH. Qed.

  Definition has_parent (ps : list (option nat)) (c : nat) : bool := match ps !! c with Some (Some _) => true | _ => false end.

  Lemma sum_children ps (L : list nat) N :
    (forall c p, ps !! c = Some (Some p) -> p < N) ->
    list_sum (map (fun n => length (filter (fun c => ps !! c = Some (Some n)) L)) (seq 0 N))
      = length (List.filter (has_parent ps) L).
  Proof.
    intros HN. induction L as [|c L IH].
    - apply sum_zero.
    - rewrite (list_sum_map_ext _ (fun n => (if decide (ps !! c = Some (Some n)) then 1 else 0) + length (filter (fun c => ps !! c = Some (Some n)) L))).
      + rewrite list_sum_map_add, IH. cbn [List.filter]. unfold has_parent at 2. destruct (ps !! c) as [[p|]|] eqn:E.
        * rewrite (list_sum_map_ext _ (fun n => if decide (p = n) then 1 else 0)).
          -- rewrite sum_indicator by by eapply HN. done.
          -- intros n _. destruct (decide (p = n)) as [->|]; [by rewrite decide_True|by rewrite decide_False by congruence].
        * rewrite (list_sum_map_ext _ (fun _ => 0)); [|intros n _; by rewrite decide_False]. rewrite sum_zero. done.
        * rewrite (list_sum_map_ext _ (fun _ => 0)); [|intros n _; by rewrite decide_False]. rewrite sum_zero. done.
      + intros n _. rewrite filter_cons. by destruct (decide _).
  Qed.

  Lemma sum_parents ps (L : list nat) : list_sum (map (fun n => length (parent_of ps n)) L) = length (List.filter (has_parent ps) L).
  Proof. induction L as [|c L IH]; [done|]. cbn [map]. rewrite list_sum_cons, IH. cbn [List.filter]. unfold parent_of, has_parent. by destruct (ps !! c) as [[p|]|]. Qed.

  Lemma one_root ps : tree_shaped ps -> length (List.filter (has_parent ps) (seq 0 (length ps))) = length ps - 1.
  Proof.
    intros Hsh. pose proof Hsh as [->|(r & Hr & Hall)]; [done|]. assert (Hlt : r < length ps) by by apply lookup_lt_Some in Hr.
    assert (Hone : forall n, n < length ps -> ps !! n = Some None -> n = r).
    { intros n Hn Hno. specialize (Hall n Hn). apply anc_inv in Hall as [?|(p & Hp & _)]; [done|congruence]. }
    replace (length ps) with (r + S (length ps - S r)) at 1 by lia. rewrite seq_app. cbn [seq plus]. rewrite List.filter_app. cbn [List.filter].
    unfold has_parent at 2. rewrite Hr.
    assert (Hall' : forall l, (forall x, x ∈ l -> x < length ps /\ x <> r) -> List.filter (has_parent ps) l = l).
    { induction l as [|x l IH]; intros Hx; [done|]. destruct (Hx x) as [H1 H2]; [left|]. cbn. unfold has_parent at 1.
      destruct (lookup_in_range ps x H1) as [[p|] Hp]; rewrite Hp; [|by apply Hone in Hp]. rewrite IH; [done|]. intros y Hy. apply Hx. by right. }
    rewrite app_length, !Hall', !seq_length; [lia| |].
    - intros x Hx%elem_of_seq. lia.
    - intros x Hx%elem_of_seq. lia.
  Qed.

  Lemma edge_count_rows h : edge_count h = list_sum (map (fun n => length (map tgt (row h n))) (seq 0 (length h))).
  Proof.
    unfold edge_count. trans (list_sum (map (fun n => length (row h n)) (seq 0 (length h)))); [|apply list_sum_map_ext; intros; by rewrite map_length]. f_equal.
    apply list_eq_same_length with (length h); [by rewrite map_length, ?seq_length..|].
    intros i x y Hi Hx Hy. rewrite list_lookup_fmap, (row_lt h i Hi) in Hx. rewrite list_lookup_fmap, lookup_seq_lt in Hy by done. cbn in *. congruence.
  Qed.

  Lemma tree_edges d h ps :
    tree_rep d h ps -> tree_shaped ps -> edge_count h = match d with Symmetric => 2 | _ => 1 end * (length ps - 1).
  Proof.
    intros [Hl Hr] Hsh. rewrite edge_count_rows, Hl.
    assert (Hc : list_sum (map (fun n => length (children_of ps n)) (seq 0 (length ps))) = length ps - 1).
    { unfold children_of. rewrite sum_children; [by apply one_root|]. by apply parent_valid. }
    assert (Hp : list_sum (map (fun n => length (parent_of ps n)) (seq 0 (length ps))) = length ps - 1) by by rewrite sum_parents, one_root.
    rewrite (list_sum_map_ext _ (fun n => length (match d with Forward => children_of ps n | Backward => parent_of ps n | Symmetric => parent_of ps n ++ children_of ps n end))).
    - destruct d; [lia|lia|]. rewrite (list_sum_map_ext _ (fun n => length (parent_of ps n) + length (children_of ps n))) by (intros; apply app_length).
      rewrite list_sum_map_add. lia.
    - intros n Hn%elem_of_seq. apply Permutation_length, Hr. lia.
  Qed.

  (** *** Any sequence of calls *)

  Lemma history_tree fl d w g ps :
    tree_flavour fl d -> tree_history fl d w g ps ->
    consistent fl g /\ tree_rep d (edges g) ps /\ tree_shaped ps /\ ordered ps /\ (d = Symmetric -> parent_first (edges g) ps).
  Proof.
    intros Hfl. induction 1 as [|g ps pos parent v n g' H IH Hp Hi|g ps n g' K ps' H IH Hpr Ho Hk].
    - split; [split; [apply empty_ok|done]|]. split; [split; [done|intros n Hn; cbn in Hn; lia]|]. split; [by left|]. split; by intros ?.
    - destruct IH as (Hc & Hrep & Hsh & Hor & Hpf).
      destruct (insert_tree fl d w g ps pos parent v Hfl Hc Hrep) as (g2 & Hi2 & Hc2 & Hrep2 & Hpf2 & _).
      { destruct Hp; [by left|right; lia]. }
      rewrite Hi in Hi2. injection Hi2 as -> <-. split; [done|]. split; [done|].
      split; [apply grow_tree; [done|lia|]; destruct Hp; [by left|right; lia]|].
      split; [apply grow_ordered; [done|lia|]; destruct Hp; [by left|right; lia]|]. intros ->. by apply Hpf2, Hpf.
    - destruct IH as (Hc & Hrep & Hsh & Hor & Hpf). pose proof (outside_closed ps n K Hsh Ho) as Hcl.
      assert (HlK : forall x, x ∈ K -> x < length ps) by (intros x Hx; by apply (proj2 Ho) in Hx as [? _]).
      destruct (decide (n < length ps)) as [Hn|Hn].
      + destruct (prune_exact fl d g ps n) as (g2 & K2 & H1 & H2 & H3 & H4); [done|done|done|by rewrite (proj1 Hrep : order (edges g) = _)|done|done|].
        assert (g2 = g') as -> by congruence. assert (K2 = K) as ->.
        { apply increasing_eq; [apply H3|apply Ho|]. intros x. by rewrite (proj2 H3 x), (proj2 Ho x). }
        split; [done|]. split; [eapply (induced_tree ps K); [apply Ho|done|done|exact Hrep|apply H4]|].
        split; [by eapply (kept_tree ps K); [apply Ho|done..]|]. split; [by eapply (kept_ordered ps K); [apply Ho|done..]|].
        intros ->. eapply (induced_parent_first ps K); [apply Ho|done|by apply Hpf|apply H4].
      + rewrite prune_out_of_range in Hpr by (rewrite (proj1 Hrep : order (edges g) = _); lia).
        assert (g = g') as <- by (destruct d; congruence). assert (K = seq 0 (length ps)) as ->.
        { apply increasing_eq; [apply Ho|apply increasing_seq|]. intros x. rewrite (proj2 Ho x), elem_of_seq. split; [lia|].
          intros Hx. split; [lia|]. intros Ha%anc_top_lt. lia. }
        assert (ps' = ps) as ->; [|done]. eapply (kept_unique ps (seq 0 (length ps))); [apply increasing_seq|done|].
        split; [by rewrite seq_length|]. intros i m Hm. apply lookup_seq in Hm as [-> Hm]. cbn.
        destruct (lookup_in_range ps i Hm) as [o Hoi]. exists o. split; [done|]. destruct o as [p|]; [|done].
        exists p. split; [|done]. apply lookup_seq_lt. by eapply parent_valid.
  Qed.

  (** Whatever has been made so can be extended: the calls meant do not fail. *)
  Lemma history_insert fl d w g ps pos parent v :
    tree_flavour fl d -> tree_history fl d w g ps -> (ps = [] \/ parent < Nat.min pos (length ps)) ->
    exists n g', insert_node_to_tree fl d w pos parent v g = (n, Ok (Done g')) /\ n = Nat.min pos (length ps).
  Proof.
    intros Hfl H Hp. destruct (history_tree _ _ _ _ _ Hfl H) as (Hc & Hrep & Hsh & _).
    destruct (insert_tree fl d w g ps pos parent v Hfl Hc Hrep) as (g2 & Hi2 & _); [destruct Hp; [by left|right; lia]|]. by eexists _, g2.
  Qed.

  Lemma history_prune fl d w g ps n :
    tree_flavour fl d -> tree_history fl d w g ps -> n < length ps ->
    exists g' K ps', prune fl d n g = Ok (Done g') /\ outside ps n K /\ kept K ps ps' /\ w_induced fl K g g'.
  Proof.
    intros Hfl H Hn. destruct (history_tree _ _ _ _ _ Hfl H) as (Hc & Hrep & Hsh & Hor & Hpf).
    destruct (prune_exact fl d g ps n) as (g2 & K & H1 & H2 & H3 & H4); [done|done|done|by rewrite (proj1 Hrep : order (edges g) = _)|done|done|].
    exists g2, K, (keep_parents ps K). split; [done|]. split; [done|]. split; [|done]. apply keep_parents_kept; [by eapply outside_closed|].
    intros x Hx. by apply (proj2 H3) in Hx as [? _].
  Qed.
End insert.
