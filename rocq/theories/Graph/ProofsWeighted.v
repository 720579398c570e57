From stdpp Require Import list.
From Verif.Base Require Import Outcome ListLemmas.
From Verif.Graph Require Import Model ModelWeighted Spec SpecWeighted.
From Verif.Graph Require Import ProofsBase ProofsPartial ProofsEmb ProofsCount.

Section proofs.
  Context {W V : Type} `{!EqDecision W}.
  Implicit Types g : wgraph W V.

  Lemma insert_node_step fl pos (es : graph W) :
    graph_ok fl es -> graph_ok fl (insert_node pos es) /\ order (insert_node pos es) = S (order es).
  Proof.
    intros Hok. split; [by eapply (step_ok fl (InsertNode pos) es)|].
    pose proof (step_counts fl (InsertNode pos) es _ Hok I eq_refl) as [H _]. lia.
  Qed.

  Lemma insert_node_w_ok fl pos v g :
    consistent fl g ->
    exists g', insert_node_w false false pos v g = Done g' /\ consistent fl g'
      /\ weights g' = take pos (weights g) ++ v :: drop pos (weights g).
  Proof.
    intros [Hok Hl]. eexists. split; [done|]. cbn [edges weights]. split.
    - destruct (insert_node_step fl (Nat.min pos (order (edges g))) (edges g) Hok) as [H1 H2].
      split; cbn [edges weights]; [done|]. rewrite app_length, take_length. cbn [length]. rewrite drop_length. lia.
    - rewrite <- Hl. destruct (decide (pos <= length (weights g))).
      + by rewrite Nat.min_l by lia.
      + rewrite Nat.min_r by lia. by rewrite firstn_all, drop_all, take_ge, drop_ge by lia.
  Qed.

  Lemma erase_node_w_ok fl n g :
    consistent fl g -> n < order (edges g) ->
    exists g', erase_node_w fl n g = Done g' /\ consistent fl g'
      /\ is_erased fl n (edges g) (edges g')
      /\ weights g' = take n (weights g) ++ drop (S n) (weights g).
  Proof.
    intros [Hok Hl] Hn. unfold erase_node_w. destruct (erase_node_is fl n (edges g) Hok Hn) as (es & Hes & He).
    rewrite Hes. unfold weights_erase. unfold order in *.
    destruct (Nat.eqb_spec n (length (weights g))); [lia|]. destruct (Nat.ltb_spec n (length (weights g))); [|lia].
    eexists. split; [done|]. cbn [edges weights]. split; [|done]. split; cbn [edges weights].
    - by eapply (step_ok fl (EraseNode n) (edges g)).
    - rewrite app_length, take_length, drop_length. unfold order. destruct He as [He _]. lia.
  Qed.

  Lemma swap_nodes_w_ok fl i j g a b :
    consistent fl g -> weights g !! i = Some a -> weights g !! j = Some b ->
    exists g', swap_nodes_w fl i j g = Done g' /\ consistent fl g'
      /\ is_swapped i j (edges g) (edges g')
      /\ weights g' = <[i := b]> (<[j := a]> (weights g)).
  Proof.
    intros [Hok Hl] Ha Hb. pose proof (lookup_lt_Some _ _ _ Ha) as Hi. pose proof (lookup_lt_Some _ _ _ Hb) as Hj.
    unfold swap_nodes_w. destruct (Nat.leb_spec (length (weights g)) i); [lia|].
    destruct (Nat.leb_spec (length (weights g)) j); [lia|]. cbn [orb]. unfold rswap. rewrite Ha, Hb.
    unfold order in Hl. destruct (swap_nodes_is fl i j (edges g) Hok) as (es & Hes & He); [lia|lia|].
    rewrite Hes. eexists. split; [done|]. cbn [edges weights]. split; [|done]. split; cbn [edges weights].
    - by eapply (step_ok fl (SwapNodes i j) (edges g)).
    - rewrite !insert_length. unfold order. destruct He as [He _]. lia.
  Qed.

  Lemma edges_w_ok fl o g g' :
    consistent fl g -> is_edge_op o -> allowed fl (edges g) o -> edges_w (step fl o) g = Done g' ->
    consistent fl g' /\ weights g' = weights g.
  Proof.
    intros [Hok Hl] Hop Ha. unfold edges_w. destruct (step fl o (edges g)) as [es| | |] eqn:Hs; [|done..].
    intros [= <-]. split; [|done]. split; cbn [edges weights]; [by eapply step_ok|].
    pose proof (step_counts fl o _ _ Hok Ha Hs) as Hc. rewrite Hl. destruct o; cbn [is_edge_op counts_ok] in *; try contradiction; destruct Hc as [Hc _]; by rewrite Hc.
  Qed.

  (** Every call succeeds and leaves a consistent graph, or throws and leaves the graph alone. *)
  Lemma wstep_fine fl o g :
    consistent fl g -> wallowed fl g o ->
    (exists g', wstep fl o g = Done g' /\ consistent fl g') \/ exists e, wstep fl o g = Failed e g.
  Proof.
    intros Hc Ha. pose proof Hc as [Hok Hl]. destruct o; cbn [wstep wallowed] in *.
    - left. unfold add_node_w. destruct (insert_node_w_ok fl (order (edges g)) v g Hc) as (g' & ? & ? & _). eauto.
    - left. destruct (insert_node_w_ok fl pos v g Hc) as (g' & ? & ? & _). eauto.
    - destruct (decide (n < order (edges g))) as [Hn|Hn].
      + left. destruct (erase_node_w_ok fl n g Hc Hn) as (g' & ? & ? & _). eauto.
      + right. exists OutOfRange. unfold erase_node_w, erase_node. rewrite check_node_throw by done. done.
    - destruct (decide (i < length (weights g))) as [Hi|Hi]; [destruct (decide (j < length (weights g))) as [Hj|Hj]|].
      + left. destruct (lookup_in_range _ _ Hi) as [a Hai]. destruct (lookup_in_range _ _ Hj) as [b Hbj].
        destruct (swap_nodes_w_ok fl i j g a b Hc Hai Hbj) as (g' & ? & ? & _). eauto.
      + right. exists OutOfRange. unfold swap_nodes_w. destruct (Nat.leb_spec (length (weights g)) j); [|lia].
        by rewrite orb_true_r.
      + right. exists OutOfRange. unfold swap_nodes_w. by destruct (Nat.leb_spec (length (weights g)) i); [|lia].
    - unfold set_node_weight_w. destruct (Nat.eqb_spec n (length (weights g))); [right; eauto|].
      destruct (Nat.ltb_spec n (length (weights g))); [|lia]. left. eexists. split; [done|]. split; [done|].
      cbn [weights edges]. by rewrite insert_length.
    - unfold mutate_node_weight_w. destruct (Nat.eqb_spec n (length (weights g))); [right; eauto|].
      destruct (lookup_in_range (weights g) n) as [x Hx]; [lia|]. rewrite Hx. left. eexists. split; [done|]. split; [done|].
      cbn [weights edges]. by rewrite insert_length.
    - destruct Ha as [Hop Ha]. unfold edges_w. assert (Hf : fine fl o (edges g)).
      { destruct fl; [by apply step_directed|by apply step_undirected|by apply step_embedded]. }
      destruct Hf as [(es & Hs & _)|[x Hs]].
      + left. rewrite Hs. eexists. split; [done|]. eapply (edges_w_ok fl o g); try done. unfold edges_w. by rewrite Hs.
      + right. rewrite Hs. eauto.
  Qed.

  Lemma map_take_drop {A B} (f : A -> B) n (x : A) l :
    map f (take n l ++ x :: drop n l) = take n (map f l) ++ f x :: drop n (map f l).
  Proof. by rewrite map_app, firstn_map; cbn [map]; rewrite skipn_map. Qed.

  Lemma map_other {B} (f : nat -> B) c v (l : list nat) :
    c ∉ l -> map (fun x => if decide (x = c) then v x else f x) l = map f l.
  Proof.
    intros H. apply map_ext_in. intros x Hx%elem_of_list_In. destruct (decide (x = c)) as [->|]; done.
  Qed.

  Lemma map_at {B} (f : nat -> B) (h : nat -> B) c n (l : list nat) :
    NoDup l -> l !! n = Some c ->
    map (fun x => if decide (x = c) then h x else f x) l = <[n := h c]> (map f l).
  Proof.
    intros Hnd Hn. apply list_eq. intros i. rewrite list_lookup_fmap.
    assert (Hlt : n < length l) by by eapply lookup_lt_Some.
    destruct (decide (i = n)) as [->|Hne].
    - rewrite Hn. cbn. rewrite decide_True by done. rewrite list_lookup_insert; [done|]. by rewrite map_length.
    - rewrite list_lookup_insert_ne by done. rewrite list_lookup_fmap. destruct (l !! i) as [x|] eqn:Hi; [|done].
      cbn. rewrite decide_False; [done|]. intros ->. apply Hne. by eapply NoDup_lookup.
  Qed.

  Lemma NoDup_put c n (l : list nat) : NoDup l -> c ∉ l -> NoDup (take n l ++ c :: drop n l).
  Proof.
    intros Hnd Hc. rewrite <- Permutation_middle, take_drop. by constructor.
  Qed.

  Lemma NoDup_remove n (l : list nat) : NoDup l -> NoDup (take n l ++ drop (S n) l).
  Proof.
    intros Hnd. destruct (l !! n) as [x|] eqn:Hx.
    - rewrite <- (take_drop_middle l n x Hx) in Hnd. rewrite <- Permutation_middle in Hnd.
      by apply NoDup_cons in Hnd as [_ ?].
    - apply lookup_ge_None in Hx. by rewrite take_ge, drop_ge, app_nil_r by lia.
  Qed.

  Lemma NoDup_exchange i j c d (l : list nat) :
    NoDup l -> l !! i = Some c -> l !! j = Some d -> NoDup (<[i := d]> (<[j := c]> l)).
  Proof.
    intros Hnd Hi Hj. assert (Hp : <[i := d]> (<[j := c]> l) ≡ₚ l).
    { apply (rswap_perm _ _ i j). unfold rswap. by rewrite Hi, Hj. }
    by rewrite Hp.
  Qed.

  Lemma history_weights fl g names given :
    history fl g names given -> consistent fl g /\ NoDup names /\ weights g = map given names.
  Proof.
    induction 1 as [g names given Hc Hnd Hw
      |g names given v c g' _ (Hc & Hnd & Hw) Hf Hs
      |g names given pos v c g' _ (Hc & Hnd & Hw) Hf Hs
      |g names given n g' _ (Hc & Hnd & Hw) Hs
      |g names given i j c d g' _ (Hc & Hnd & Hw) Hs Hi Hj
      |g names given n v c g' _ (Hc & Hnd & Hw) Hs Hn
      |g names given n f c g' _ (Hc & Hnd & Hw) Hs Hn
      |g names given o g' _ (Hc & Hnd & Hw) Ha Hs].
    - done.
    - cbn [wstep] in Hs. unfold add_node_w in Hs.
      destruct (insert_node_w_ok fl (order (edges g)) v g Hc) as (g1 & H1 & H2 & H3).
      rewrite H1 in Hs. injection Hs as <-. split; [done|].
      destruct Hc as [_ Hl]. assert (Hlen : length names = length (weights g)) by (by rewrite Hw, map_length).
      split.
      + replace (names ++ [c]) with (take (length names) names ++ c :: drop (length names) names)
          by (by rewrite firstn_all, drop_all). by apply NoDup_put.
      + rewrite H3, map_app. cbn [map]. rewrite decide_True by done. rewrite (map_other given c (fun _ => v)) by done.
        rewrite <- Hw, <- Hl, firstn_all, drop_all. done.
    - cbn [wstep] in Hs. destruct (insert_node_w_ok fl pos v g Hc) as (g1 & H1 & H2 & H3).
      rewrite H1 in Hs. injection Hs as <-. split; [done|]. split; [by apply NoDup_put|].
      rewrite map_take_drop, decide_True by done. rewrite (map_other given c (fun _ => v)) by done. by rewrite H3, Hw.
    - cbn [wstep] in Hs. destruct (decide (n < order (edges g))) as [Hn|Hn].
      + destruct (erase_node_w_ok fl n g Hc Hn) as (g1 & H1 & H2 & _ & H3). rewrite H1 in Hs. injection Hs as <-.
        split; [done|]. split; [by apply NoDup_remove|]. by rewrite H3, Hw, map_app, firstn_map, skipn_map.
      + unfold erase_node_w, erase_node in Hs. rewrite check_node_throw in Hs by done. done.
    - cbn [wstep] in Hs.
      assert (Hi' : weights g !! i = Some (given c)) by (rewrite Hw, list_lookup_fmap, Hi; done).
      assert (Hj' : weights g !! j = Some (given d)) by (rewrite Hw, list_lookup_fmap, Hj; done).
      destruct (swap_nodes_w_ok fl i j g _ _ Hc Hi' Hj') as (g1 & H1 & H2 & _ & H3). rewrite H1 in Hs. injection Hs as <-.
      split; [done|]. split; [by apply NoDup_exchange|].
      rewrite H3, Hw. by rewrite !list_fmap_insert.
    - cbn [wstep] in Hs. unfold set_node_weight_w in Hs.
      destruct (Nat.eqb_spec n (length (weights g))); [done|]. destruct (Nat.ltb_spec n (length (weights g))); [|done].
      injection Hs as <-. destruct Hc as [Hok Hl]. split; [|split; [done|]].
      + split; [done|]. cbn [weights edges]. by rewrite insert_length.
      + cbn [weights]. rewrite (map_at given (fun _ => v) c n) by done. by rewrite Hw.
    - cbn [wstep] in Hs. unfold mutate_node_weight_w in Hs.
      destruct (Nat.eqb_spec n (length (weights g))); [done|].
      assert (Hn' : weights g !! n = Some (given c)) by (rewrite Hw, list_lookup_fmap, Hn; done).
      rewrite Hn' in Hs. injection Hs as <-. destruct Hc as [Hok Hl]. split; [|split; [done|]].
      + split; [done|]. cbn [weights edges]. by rewrite insert_length.
      + cbn [weights]. rewrite (map_at given (fun x => f (given x)) c n) by done. by rewrite Hw.
    - cbn [wstep] in Hs. destruct Ha as [Hop Ha]. destruct (edges_w_ok fl o g g' Hc Hop Ha Hs) as [H1 H2].
      split; [done|]. split; [done|]. congruence.
  Qed.

  (** Failures during insertion. *)
  Lemma insert_node_w_failure fl f1 f2 pos v g :
    consistent fl g -> pos <= order (edges g) -> (f1 || f2) = true ->
    insert_node_w f1 f2 pos v g = Failed UserError g.
  Proof.
    intros [Hok Hl] Hp Hf. unfold insert_node_w. destruct f1; [done|]. destruct f2; [|done].
    rewrite Nat.min_l by done. rewrite app_length. cbn [length]. rewrite drop_length, take_length.
    destruct (Nat.ltb_spec (order (edges g)) (pos `min` length (weights g) + S (length (weights g) - pos))); [|lia].
    unfold weights_erase. rewrite app_length. cbn [length]. rewrite drop_length, take_length.
    destruct (Nat.eqb_spec pos (pos `min` length (weights g) + S (length (weights g) - pos))); [lia|].
    destruct (Nat.ltb_spec pos (pos `min` length (weights g) + S (length (weights g) - pos))); [|lia].
    f_equal. destruct g as [es ws]. cbn [edges weights] in *. f_equal.
    rewrite take_app_le by (rewrite take_length; lia). rewrite take_take, Nat.min_id.
    rewrite drop_app_ge by (rewrite take_length; lia). rewrite take_length.
    replace (S pos - pos `min` length ws) with 1 by lia. cbn [drop]. rewrite drop_0. by rewrite take_drop.
  Qed.
End proofs.
