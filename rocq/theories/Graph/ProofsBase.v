(** Rows of graphs, and the effect of the operations that treat all flavours alike. *)
From stdpp Require Import list sorting sets.
From Verif.Base Require Import Outcome ListLemmas.
From Verif.Graph Require Import Model Spec.
Local Open Scope res_scope.

Section base.
  Context {W : Type} `{!EqDecision W}.
  Implicit Types g : graph W.

  Lemma row_lookup g i r : g !! i = Some r -> row g i = r.
  Proof. unfold row. intros ->. done. Qed.

  Lemma row_lt g i : i < length g -> g !! i = Some (row g i).
  Proof.
    intros H. destruct (lookup_in_range g i H) as [r Hr]. rewrite Hr. f_equal.
    symmetry. by apply row_lookup.
  Qed.

  Lemma row_ge g i : length g <= i -> row g i = [].
  Proof. intros H. unfold row. by rewrite lookup_ge_None_2. Qed.

  Lemma row_some_lt g i k e : row g i !! k = Some e -> i < length g.
  Proof.
    intros H. destruct (decide (i < length g)); [done|].
    rewrite row_ge in H by lia. done.
  Qed.

  Lemma row_elem_lt g i e : e ∈ row g i -> i < length g.
  Proof. intros [k Hk]%elem_of_list_lookup. by eapply row_some_lt. Qed.

  Lemma rget_row g i : i < length g -> rget g i = Ok (row g i).
  Proof. intros H. unfold rget. by rewrite (row_lt g i H). Qed.

  Lemma row_insert g i j r :
    i < length g -> row (<[i := r]> g) j = if decide (j = i) then r else row g j.
  Proof.
    intros H. unfold row. destruct (decide (j = i)) as [->|Hn].
    - by rewrite list_lookup_insert.
    - by rewrite list_lookup_insert_ne.
  Qed.

  Lemma row_insert_eq g i r : i < length g -> row (<[i := r]> g) i = r.
  Proof. intros H. rewrite row_insert by done. by rewrite decide_True. Qed.

  Lemma row_insert_ne g i j r : i < length g -> j <> i -> row (<[i := r]> g) j = row g j.
  Proof. intros H Hn. rewrite row_insert by done. by rewrite decide_False. Qed.

  Lemma graph_eq g g' :
    length g = length g' -> (forall i, i < length g -> row g i = row g' i) -> g = g'.
  Proof.
    intros Hl H. apply list_eq. intros i. destruct (decide (i < length g)) as [Hi|Hi].
    - rewrite !row_lt by lia. f_equal. auto.
    - rewrite !lookup_ge_None_2 by lia. done.
  Qed.

  Lemma get_row g i k e : row g i !! k = Some e -> get g i k = Ok e.
  Proof.
    intros H. unfold get. rewrite rget_row by (by eapply row_some_lt). simpl.
    by apply rget_ok.
  Qed.

  Lemma upd_row g i k e f :
    row g i !! k = Some e -> upd g i k f = Ok (<[i := <[k := f e]> (row g i)]> g).
  Proof.
    intros H. unfold upd. rewrite rget_row by (by eapply row_some_lt). simpl.
    apply rget_ok in H. by rewrite H.
  Qed.

  Lemma push_row g i e :
    i < length g -> push g i e = Ok (<[i := row g i ++ [e]]> g).
  Proof. intros H. unfold push. by rewrite rget_row. Qed.

  Lemma insert_at_row g i k e :
    i < length g -> k <= length (row g i) ->
    insert_at g i k e = Ok (<[i := take k (row g i) ++ e :: drop k (row g i)]> g).
  Proof.
    intros H Hk. unfold insert_at. rewrite rget_row by done. simpl.
    destruct (Nat.leb_spec k (length (row g i))); [done|lia].
  Qed.

  Lemma erase_at_row g i k :
    k < length (row g i) ->
    erase_at g i k = Ok (<[i := take k (row g i) ++ drop (S k) (row g i)]> g).
  Proof.
    intros H. destruct (lookup_in_range _ _ H) as [e He]. unfold erase_at.
    rewrite rget_row by (by eapply row_some_lt). simpl. apply rget_ok in He. by rewrite He.
  Qed.

  Lemma check_node_ok g n : n < length g -> check_node g n = Ok tt.
  Proof. intros H. unfold check_node, order. by destruct (Nat.ltb_spec n (length g)); [|lia]. Qed.

  Lemma check_node_throw g n : ~ n < length g -> check_node g n = Throw OutOfRange.
  Proof. intros H. unfold check_node, order. by destruct (Nat.ltb_spec n (length g)); [lia|]. Qed.

  Lemma sorted_unique_elem (l : list nat) x : x ∈ sorted_unique l <-> x ∈ l.
  Proof. unfold sorted_unique. rewrite elem_of_remove_dups. by rewrite merge_sort_Permutation. Qed.

  Lemma sorted_unique_NoDup (l : list nat) : NoDup (sorted_unique l).
  Proof. apply NoDup_remove_dups. Qed.

  (** A loop that rewrites some rows, each once. *)
  Lemma foldM_rows (body : graph W -> nat -> res (graph W)) (F : nat -> list (edge W) -> list (edge W)) l g :
    (forall g i, i < length g -> i ∈ l -> body g i = Ok (<[i := F i (row g i)]> g)) ->
    NoDup l -> (forall i, i ∈ l -> i < length g) ->
    exists g', foldM body l g = Ok g' /\ length g' = length g /\
      forall i, row g' i = if decide (i ∈ l) then F i (row g i) else row g i.
  Proof.
    intros Hb Hnd. revert g. induction l as [|a l IH]; intros g Hr; cbn [foldM].
    - exists g. split; [done|]. split; [done|]. intros i. by rewrite decide_False by set_solver.
    - apply NoDup_cons in Hnd as [Ha Hnd].
      assert (Hlt : a < length g) by (apply Hr; set_solver).
      rewrite Hb by (done || set_solver). cbn [rbind].
      destruct (IH ltac:(intros; apply Hb; set_solver) Hnd (<[a := F a (row g a)]> g)) as (g' & Hg & Hl & Hrow).
      { intros i Hi. rewrite insert_length. apply Hr. set_solver. }
      exists g'. split; [done|]. rewrite insert_length in Hl. split; [done|].
      intros i. rewrite Hrow, row_insert by done.
      destruct (decide (i = a)) as [->|Hn].
      + rewrite decide_False by done. by rewrite decide_True by set_solver.
      + destruct (decide (i ∈ l)); [by rewrite decide_True by set_solver|].
        by rewrite decide_False by set_solver.
  Qed.

  (** *** Relabelling targets *)

  Lemma length_fix_edge_data p f g : length (fix_edge_data p f g) = length g.
  Proof. apply map_length. Qed.

  Lemma row_fix_edge_data p f g i :
    row (fix_edge_data p f g) i = map (fun e => if p (tgt e) then set_tgt (f (tgt e)) e else e) (row g i).
  Proof.
    unfold row, fix_edge_data. rewrite list_lookup_fmap. by destruct (g !! i).
  Qed.

  Lemma row_app_l g g' i : i < length g -> row (g ++ g') i = row g i.
  Proof. intros H. unfold row. by rewrite lookup_app_l. Qed.

  Lemma row_app_r g g' i : length g <= i -> row (g ++ g') i = row g' (i - length g).
  Proof. intros H. unfold row. by rewrite lookup_app_r. Qed.

  Lemma row_delete g n i :
    n < length g -> row (take n g ++ drop (S n) g) i = row g (up n i).
  Proof.
    intros H. unfold up. destruct (decide (n <= i)) as [Hi|Hi].
    - rewrite row_app_r by (rewrite take_length; lia). unfold row.
      rewrite lookup_drop, take_length. do 2 f_equal. lia.
    - rewrite row_app_l by (rewrite take_length; lia). unfold row.
      by rewrite lookup_take by lia.
  Qed.

  Lemma length_delete g n : n < length g -> length (take n g ++ drop (S n) g) = length g - 1.
  Proof. intros H. rewrite app_length, take_length, drop_length. lia. Qed.

  Lemma map_ext_rows {A B} (f h : A -> B) (l : list A) :
    (forall x, x ∈ l -> f x = h x) -> map f l = map h l.
  Proof. intros H. apply map_ext_in. intros x Hx. apply H. by apply elem_of_list_In. Qed.

  (** *** add_node, insert_node *)

  Lemma add_node_inserted g : in_range g -> is_inserted (length g) g (add_node g).
  Proof.
    intros Hr. unfold is_inserted, add_node. rewrite app_length. simpl. split; [lia|]. split.
    { rewrite row_app_r by done. by rewrite Nat.sub_diag. }
    intros i Hi. unfold up at 1. rewrite decide_False by lia.
    rewrite row_app_l by done. rewrite <- (map_id (row g i)) at 1.
    apply map_ext_rows. intros [t c w] He. apply Hr in He. simpl in *. unfold up. by rewrite decide_False by lia.
  Qed.

  Lemma insert_node_inserted pos g :
    is_inserted (Nat.min pos (length g)) g (insert_node pos g).
  Proof.
    unfold insert_node, order. set (n := Nat.min pos (length g)).
    assert (Hn : n <= length g) by lia. clearbody n. unfold is_inserted.
    rewrite length_fix_edge_data, app_length. cbn [length]. rewrite take_length, drop_length.
    split; [lia|]. split.
    { rewrite row_fix_edge_data, row_app_r by (rewrite take_length; lia).
      rewrite take_length. by replace (n - (n `min` length g)) with 0 by lia. }
    intros i Hi. rewrite row_fix_edge_data.
    assert (Hrow : row (take n g ++ [] :: drop n g) (up n i) = row g i).
    { unfold up. destruct (decide (n <= i)).
      - rewrite row_app_r by (rewrite take_length; lia). rewrite take_length.
        replace (i + 1 - n `min` length g) with (S (i - n)) by lia.
        change (row ([] :: drop n g) (S (i - n))) with (row (drop n g) (i - n)).
        unfold row. rewrite lookup_drop. do 2 f_equal. lia.
      - rewrite row_app_l by (rewrite take_length; lia). unfold row. by rewrite lookup_take by lia. }
    rewrite Hrow. apply map_ext_rows. intros [t c w] _. simpl. unfold up, set_tgt. simpl.
    destruct (Nat.leb_spec n t); [rewrite decide_True by done|by rewrite decide_False by lia].
    by rewrite Nat.add_1_r.
  Qed.

  (** A graph with a node inserted is determined. *)
  Lemma up_down n t : t <> n -> up n (down n t) = t.
  Proof. unfold up, down. intros H. repeat case_decide; lia. Qed.
  Lemma down_up n t : down n (up n t) = t.
  Proof. unfold up, down. repeat case_decide; lia. Qed.
  Lemma up_ne n t : up n t <> n.
  Proof. unfold up. case_decide; lia. Qed.
  Lemma up_inj n a b : up n a = up n b -> a = b.
  Proof. unfold up. repeat case_decide; lia. Qed.
  Lemma up_lt n t l : t < l -> up n t < S l.
  Proof. unfold up. case_decide; lia. Qed.
  Lemma down_lt n t l : n < l -> t < l -> t <> n -> down n t < l - 1.
  Proof. unfold down. case_decide; lia. Qed.
  Lemma up_lt_rev n t l : n < l -> t < l - 1 -> up n t < l.
  Proof. unfold up. case_decide; lia. Qed.
  Lemma down_inj n a b : a <> n -> b <> n -> down n a = down n b -> a = b.
  Proof. unfold down. repeat case_decide; lia. Qed.

  Lemma transpose_invol i j t : transpose i j (transpose i j t) = t.
  Proof. unfold transpose. repeat case_decide; lia. Qed.
  Lemma transpose_inj i j a b : transpose i j a = transpose i j b -> a = b.
  Proof. intros H. rewrite <- (transpose_invol i j a), H. apply transpose_invol. Qed.
  Lemma transpose_lt i j t l : i < l -> j < l -> (transpose i j t < l <-> t < l).
  Proof. unfold transpose. intros. repeat case_decide; lia. Qed.
  Lemma swap_target_eq i j t : swap_target i j t = transpose i j t.
  Proof.
    unfold swap_target, transpose.
    destruct (Nat.eqb_spec t i); [by rewrite decide_True|rewrite decide_False by done].
    destruct (Nat.eqb_spec t j); [by rewrite decide_True|by rewrite decide_False].
  Qed.

  (** Rows of an inserted graph, by cases. *)
  Lemma inserted_row n g g' i :
    n <= length g -> is_inserted n g g' ->
    row g' i = if decide (i = n) then [] else
                 map (fun e => Edge (up n (tgt e)) (comp e) (wt e)) (row g (down n i)).
  Proof.
    intros Hn (Hl & H0 & H). destruct (decide (i = n)) as [->|Hi]; [done|].
    destruct (decide (down n i < length g)) as [Hd|Hd].
    - rewrite <- (up_down n i Hi) at 1. by rewrite H.
    - rewrite (row_ge g) by lia. rewrite row_ge; [done|].
      unfold down in Hd. rewrite Hl. case_decide; lia.
  Qed.

  (** *** erase_node, given what the loop over the other nodes did *)

  Lemma erase_node_finish fl n g g1 :
    n < length g -> length g1 = length g ->
    (forall i, i <> n -> i < length g -> row g1 i =
       map (fun e => Edge (tgt e) (new_comp fl g n e) (wt e)) (filter (fun e => tgt e <> n) (row g i))) ->
    is_erased fl n g (fix_edge_data (fun t => n <? t) pred (take n g1 ++ drop (S n) g1)).
  Proof.
    intros Hn Hl H. unfold is_erased. rewrite length_fix_edge_data, length_delete by lia.
    split; [lia|]. intros i Hi. rewrite row_fix_edge_data, row_delete by lia.
    rewrite H by (first [apply up_ne | apply up_lt_rev; lia]). rewrite map_map.
    apply map_ext_rows. intros [t c w] _. unfold set_tgt. cbn [tgt comp wt].
    unfold down. destruct (Nat.ltb_spec n t); [rewrite decide_True by done|by rewrite decide_False by lia].
    by rewrite <- Nat.sub_1_r.
  Qed.

  (** *** swap_nodes, given that no other row has edges to either node *)

  Lemma swap_nodes_rows rows i j g :
    i <> j -> i < length g -> j < length g ->
    NoDup rows -> (forall k, k ∈ rows -> k < length g) ->
    (forall k e, e ∈ row g k -> tgt e = i \/ tgt e = j -> k ∈ rows) ->
    exists g', (let? g := foldM (fix_up i j) rows g in rswap g i j) = Ok g' /\ is_swapped i j g g'.
  Proof.
    intros Hij Hi Hj Hnd Hlt Hrows.
    destruct (foldM_rows (fix_up i j)
      (fun _ r => map (fun e => set_tgt (swap_target i j (tgt e)) e) r) rows g) as (g1 & Hg1 & Hl & Hr).
    { intros g0 k Hk _. unfold fix_up. by rewrite rget_row. }
    { done. }
    { done. }
    rewrite Hg1. cbn [rbind]. destruct (rswap_exists g1 i j) as [g' Hg']; [lia|lia|].
    exists g'. split; [done|].
    destruct (rswap_ok_lookup _ _ _ _ Hg') as (Hlen & Hlook).
    unfold is_swapped. split; [lia|]. intros a.
    assert (Hrow : row g' (transpose i j a) = row g1 a).
    { unfold row. f_equal. rewrite Hlook. unfold transpose.
      destruct (decide (a = i)) as [->|]; [by rewrite decide_False, decide_True by done|].
      destruct (decide (a = j)) as [->|]; [by rewrite decide_True by done|].
      by rewrite !decide_False by done. }
    rewrite Hrow, Hr. destruct (decide (a ∈ rows)) as [|Hna].
    - apply map_ext_rows. intros [t c w] _. unfold set_tgt. cbn. by rewrite swap_target_eq.
    - rewrite <- (map_id (row g a)) at 1. apply map_ext_rows. intros [t c w] He. cbn.
      unfold transpose. rewrite !decide_False; [done| |]; intros ->; apply Hna; eapply Hrows; eauto.
  Qed.

  Lemma is_swapped_same i g g' : is_swapped i i g g' <-> g' = g.
  Proof.
    assert (Hid : forall t, transpose i i t = t) by (intros t; unfold transpose; repeat case_decide; lia).
    assert (Hm : forall a, map (fun e => Edge (transpose i i (tgt e)) (comp e) (wt e)) (row g a) = row g a).
    { intros a. rewrite <- (map_id (row g a)) at 2. apply map_ext_rows. intros [t c w] _. cbn. by rewrite Hid. }
    split.
    - intros [Hl H]. apply graph_eq; [done|]. intros k Hk. specialize (H k).
      by rewrite Hid, Hm in H.
    - intros ->. split; [done|]. intros a. by rewrite Hid, Hm.
  Qed.

  Lemma is_swapped_unique i j g g1 g2 : is_swapped i j g g1 -> is_swapped i j g g2 -> g1 = g2.
  Proof.
    intros [Hl1 H1] [Hl2 H2]. apply graph_eq; [lia|]. intros k _.
    rewrite <- (transpose_invol i j k). by rewrite H1, H2.
  Qed.

  Lemma is_swapped_sym i j g g' : is_swapped i j g g' -> is_swapped i j g' g.
  Proof.
    intros [Hl H]. split; [done|]. intros a. specialize (H (transpose i j a)).
    rewrite transpose_invol in H. rewrite H. rewrite map_map.
    rewrite <- (map_id (row g (transpose i j a))) at 1. apply map_ext_rows.
    intros [t c w] _. cbn. by rewrite transpose_invol.
  Qed.
End base.
