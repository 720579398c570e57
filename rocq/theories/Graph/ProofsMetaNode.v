(** Proofs about the meta data of edges when nodes are erased or swapped (C117). *)
From stdpp Require Import list.
From Verif.Base Require Import Outcome ListLemmas.
From Verif.Graph Require Import Model Spec ModelMeta SpecMeta ProofsBase ProofsPartial ProofsComp ProofsEmb ProofsCount ProofsTop ProofsMeta.
Local Open Scope res_scope.

Section nodes.
  Context {W M : Type} `{!EqDecision W}.
  Implicit Types g : graph (W * M).

  (** ** Without meta data *)

  Lemma foldM_plain {A} (h : graph (W * M) -> A -> res (graph (W * M))) (h' : graph W -> A -> res (graph W)) l g :
    (forall g a, h' (plain g) a = plainly (h g a)) -> foldM h' l (plain g) = plainly (foldM h l g).
  Proof.
    intros Hh. revert g. induction l as [|a l IH]; intros g; [done|]. cbn [foldM]. rewrite Hh. by apply bind_plainly.
  Qed.
  Lemma filter_plain n (r : list (edge (W * M))) :
    filter (fun e => (tgt e =? n) = false) (map pe r) = map pe (filter (fun e => (tgt e =? n) = false) r).
  Proof.
    induction r as [|e r IH]; [done|]. cbn [map]. rewrite !filter_cons. change (tgt (pe e)) with (tgt e).
    destruct (decide ((tgt e =? n) = false)); cbn [map]; by rewrite IH.
  Qed.
  Lemma erase_if_plain g i n : erase_from_partition_if (plain g) i (fun e => tgt e =? n) = plainly (erase_from_partition_if g i (fun e => tgt e =? n)).
  Proof.
    unfold erase_from_partition_if. rewrite rget_plain, bind_rmap. destruct (rget g i) as [r| | |]; try done. cbn [rbind plainly].
    rewrite plain_insert. by rewrite filter_plain.
  Qed.
  Lemma erase_embedded_plain fuel n p k g : erase_embedded fuel n p k (plain g) = plainly (erase_embedded fuel n p k g).
  Proof.
    revert k g. induction fuel as [|fuel IH]; intros k g; cbn [erase_embedded]; rewrite rget_plain, bind_rmap;
      (destruct (rget g p) as [r| | |]; try done); cbn [rbind]; rewrite map_length; (destruct (k =? length r); [done|]); [done|].
    rewrite rget_map, bind_rmap. destruct (rget r k) as [e| | |]; try done. cbn [rbind]. change (tgt (pe e)) with (tgt e).
    destruct (tgt e =? n); [|apply IH]. rewrite erase_at_plain. apply bind_plainly. intros g1. rewrite modify_from_plain. apply bind_plainly. intros g2. apply IH.
  Qed.
  Lemma partners_plain fl n g p : erase_partners fl n (plain g) p = plainly (erase_partners fl n g p).
  Proof.
    destruct fl; cbn [erase_partners]; try apply erase_if_plain. rewrite rget_plain, bind_rmap. destruct (rget g p) as [r| | |]; try done.
    cbn [rbind]. rewrite map_length. apply erase_embedded_plain.
  Qed.
  Lemma fix_plain p f g : fix_edge_data p f (plain g) = plain (fix_edge_data p f g).
  Proof.
    unfold fix_edge_data, plain. rewrite !map_map. apply map_ext. intros r. rewrite !map_map. apply map_ext. intros e. cbn [tgt]. by destruct (p (tgt e)).
  Qed.
  Lemma targets_plain (r : list (edge (W * M))) : map tgt (map pe r) = map tgt r.
  Proof. by rewrite map_map. Qed.
  Lemma erase_node_plain fl n g : plainly (erase_node fl n g) = erase_node fl n (plain g).
  Proof.
    symmetry. unfold erase_node. rewrite check_plain. destruct (check_node g n) as [[]| | |]; try done. cbn [rbind].
    assert (Hend : forall g, fix_edge_data (fun t => n <? t) pred (take n (plain g) ++ drop (S n) (plain g)) =
      plain (fix_edge_data (fun t => n <? t) pred (take n g ++ drop (S n) g))).
    { intros g0. rewrite <-fix_plain. f_equal. unfold plain. by rewrite map_app, firstn_map, skipn_map. }
    destruct fl.
    - rewrite (foldM_plain (fun g i => if i =? n then Ok g else erase_from_partition_if g i (fun e => tgt e =? n))).
      + replace (length (plain g)) with (length g) by (symmetry; apply map_length). apply bind_plainly. intros g1. cbn [plainly]. by rewrite Hend.
      + intros g1 a. destruct (a =? n); [done|apply erase_if_plain].
    - rewrite rget_plain, bind_rmap. destruct (rget g n) as [r| | |]; try done. cbn [rbind]. rewrite targets_plain.
      rewrite (foldM_plain (erase_partners Undirected n)); [|apply partners_plain]. apply bind_plainly. intros g1. cbn [plainly]. by rewrite Hend.
    - rewrite rget_plain, bind_rmap. destruct (rget g n) as [r| | |]; try done. cbn [rbind]. rewrite targets_plain.
      rewrite (foldM_plain (erase_partners Embedded n)); [|apply partners_plain]. apply bind_plainly. intros g1. cbn [plainly]. by rewrite Hend.
  Qed.
  Lemma fix_up_plain i j g n : fix_up i j (plain g) n = plainly (fix_up i j g n).
  Proof.
    unfold fix_up. rewrite rget_plain, bind_rmap. destruct (rget g n) as [r| | |]; try done. cbn [rbind plainly]. rewrite plain_insert. f_equal. f_equal.
    rewrite !map_map. by apply map_ext.
  Qed.
  Lemma rswap_plain g i j : rswap (plain g) i j = plainly (rswap g i j).
  Proof.
    unfold rswap. unfold plain at 1 2. rewrite !list_lookup_fmap. destruct (g !! i) as [x|]; [|done]. destruct (g !! j) as [y|]; [|done]. cbn [fmap option_fmap option_map plainly].
    rewrite !plain_insert. done.
  Qed.
  Lemma swap_nodes_plain fl i j g : plainly (swap_nodes fl i j g) = swap_nodes fl i j (plain g).
  Proof.
    symmetry. unfold swap_nodes. rewrite !check_plain. destruct (check_node g i) as [[]| | |]; try done. cbn [rbind].
    destruct (check_node g j) as [[]| | |]; try done. cbn [rbind]. destruct (i =? j); [done|].
    assert (Hend : forall rows, (let? h := foldM (fix_up i j) rows (plain g) in rswap h i j) = plainly (let? g := foldM (fix_up i j) rows g in rswap g i j)).
    { intros rows. rewrite (foldM_plain (fix_up i j)) by (apply fix_up_plain). apply bind_plainly. intros g1. apply rswap_plain. }
    destruct fl.
    - cbn [rbind]. replace (length (plain g)) with (length g) by (symmetry; apply map_length). apply Hend.
    - rewrite rget_plain. destruct (rget g i) as [ri| | |]; try done. cbn [rbind rmap].
      rewrite rget_plain. destruct (rget g j) as [rj| | |]; try done. cbn [rbind rmap]. rewrite !targets_plain. apply Hend.
    - rewrite rget_plain. destruct (rget g i) as [ri| | |]; try done. cbn [rbind rmap].
      rewrite rget_plain. destruct (rget g j) as [rj| | |]; try done. cbn [rbind rmap]. rewrite !targets_plain. apply Hend.
  Qed.

  (** ** With them *)

  Definition ends g i : list (nat * M) := map (fun e => (tgt e, meta e)) (row g i).
  Lemma metas_ends g i : metas g i = map snd (ends g i).
  Proof. unfold metas, ends. by rewrite map_map. Qed.
  Lemma ends_insert g i r j : i < length g -> ends (<[i := r]> g) j = if decide (j = i) then map (fun e => (tgt e, meta e)) r else ends g j.
  Proof. intros H. unfold ends. rewrite row_insert by done. by destruct (decide (j = i)). Qed.
  Lemma upd_ends g i k F g' : upd g i k F = Ok g' -> (forall e, meta (F e) = meta e /\ tgt (F e) = tgt e) -> forall j, ends g' j = ends g j.
  Proof.
    unfold upd. intros (r & Hr & (e & He & [= <-])%rbind_ok)%rbind_ok HF j. apply rget_inv in Hr as [Hl <-]. apply rget_ok in He.
    rewrite ends_insert by done. destruct (decide (j = i)) as [->|]; [|done].
    change (map (fun e => (tgt e, meta e)) (<[k:=F e]> (row g i))) with ((fun e => (tgt e, meta e)) <$> <[k:=F e]> (row g i)). rewrite list_fmap_insert.
    unfold ends. apply list_insert_id. rewrite list_lookup_fmap, He. cbn. destruct (HF e) as [-> ->]. done.
  Qed.
  Lemma modify_comp_ends f s ks g g' : modify_comp f s ks g = Ok g' -> forall j, ends g' j = ends g j.
  Proof.
    revert g. induction ks as [|k ks IH]; intros g H j; [by injection H as <-|]. cbn [modify_comp] in H.
    apply rbind_ok in H as (e & He & (g1 & Hu & H)%rbind_ok). rewrite (IH _ H). by apply (upd_ends _ _ _ _ _ Hu).
  Qed.
  Lemma modify_from_ends f s k g g' : modify_from f s k g = Ok g' -> forall j, ends g' j = ends g j.
  Proof. unfold modify_from. intros (r & _ & H)%rbind_ok. by apply (modify_comp_ends _ _ _ _ _ H). Qed.
  Lemma erase_at_ends g i k g' : erase_at g i k = Ok g' ->
    k < length (ends g i) /\ forall j, ends g' j = if decide (j = i) then without k (ends g i) else ends g j.
  Proof.
    unfold erase_at. intros (r & Hr & (e & He & [= <-])%rbind_ok)%rbind_ok. apply rget_inv in Hr as [Hl <-]. apply rget_ok in He. split.
    { unfold ends. rewrite map_length. by eapply lookup_lt_Some. }
    intros j. rewrite ends_insert by done. destruct (decide (j = i)); [|done]. rewrite map_app. unfold without, ends. by rewrite firstn_map, skipn_map.
  Qed.

  Definition rest (n : nat) (l : list (nat * M)) : list (nat * M) := filter (fun x => fst x <> n) l.
  Lemma erase_embedded_ends fuel n p k g g' : erase_embedded fuel n p k g = Ok g' -> k <= length (ends g p) ->
    ends g' p = take k (ends g p) ++ rest n (drop k (ends g p)) /\ forall j, j <> p -> ends g' j = ends g j.
  Proof.
    revert k g. induction fuel as [|fuel IH]; intros k g H Hk; cbn [erase_embedded] in H; apply rbind_ok in H as (r & Hr & H);
      apply rget_inv in Hr as [Hp <-]; (destruct (Nat.eqb_spec k (length (row g p))) as [->|Hne];
        [injection H as <-; replace (length (row g p)) with (length (ends g p)) by apply map_length; rewrite firstn_all, drop_all; by rewrite app_nil_r|]); [done|].
    apply rbind_ok in H as (e & He & H). apply rget_ok in He.
    assert (Hx : ends g p !! k = Some (tgt e, meta e)) by (unfold ends; by rewrite list_lookup_fmap, He).
    rewrite (drop_S _ _ _ Hx). unfold rest. rewrite filter_cons. cbn [fst]. destruct (Nat.eqb_spec (tgt e) n) as [Ht|Ht].
    - rewrite decide_False by tauto. apply rbind_ok in H as (g1 & H1 & (g2 & H2 & H3)%rbind_ok). apply erase_at_ends in H1 as [Hlt H1].
      pose proof (modify_from_ends _ _ _ _ _ H2) as Hm.
      assert (Hp2 : ends g2 p = take k (ends g p) ++ drop (S k) (ends g p)) by (by rewrite Hm, H1, decide_True).
      assert (Hkl : length (take k (ends g p)) = k) by (apply take_length_le; lia).
      apply IH in H3 as [H3 H4]; [|rewrite Hp2, app_length, Hkl; lia].
      split.
      + rewrite H3, Hp2. rewrite <-Hkl at 1. rewrite take_app. f_equal. unfold rest. f_equal. rewrite <-Hkl at 1. apply drop_app.
      + intros j Hj. rewrite H4 by done. by rewrite Hm, H1, decide_False.
    - rewrite decide_True by done. apply IH in H as [H3 H4]; [|apply lookup_lt_Some in Hx; lia]. split; [|done].
      rewrite H3, (take_S_r _ _ _ Hx), <-app_assoc. done.
  Qed.
  Lemma erase_if_ends g i n g' : erase_from_partition_if g i (fun e => tgt e =? n) = Ok g' ->
    forall j, ends g' j = if decide (j = i) then rest n (ends g j) else ends g j.
  Proof.
    unfold erase_from_partition_if. intros (r & Hr & [= <-])%rbind_ok j. apply rget_inv in Hr as [Hl <-]. rewrite ends_insert by done.
    destruct (decide (j = i)) as [->|]; [|done]. unfold ends, rest. induction (row g i) as [|e r IH]; [done|]. cbn [map]. rewrite !filter_cons. cbn [fst].
    destruct (Nat.eqb_spec (tgt e) n) as [Ht|Ht].
    - rewrite decide_False by done. rewrite decide_False by tauto. done.
    - rewrite decide_True by done. rewrite decide_True by done. cbn [map]. by rewrite IH.
  Qed.
  Lemma partners_ends fl n g p g' : erase_partners fl n g p = Ok g' -> forall j, ends g' j = if decide (j = p) then rest n (ends g j) else ends g j.
  Proof.
    destruct fl; cbn [erase_partners]; intros H j; [by apply erase_if_ends|by apply erase_if_ends|]. apply rbind_ok in H as (r & _ & H).
    apply erase_embedded_ends in H as [H1 H2]; [|lia]. destruct (decide (j = p)) as [->|]; [done|by apply H2].
  Qed.
  Lemma foldM_ends (h : graph (W * M) -> nat -> res (graph (W * M))) (F : nat -> list (nat * M) -> list (nat * M)) l g g' :
    (forall g a g', h g a = Ok g' -> forall j, ends g' j = if decide (j = a) then F j (ends g j) else ends g j) -> NoDup l ->
    foldM h l g = Ok g' -> forall j, ends g' j = if decide (j ∈ l) then F j (ends g j) else ends g j.
  Proof.
    intros Hh Hnd. revert g. induction Hnd as [|a l Ha _ IH]; intros g H j.
    - injection H as <-. rewrite decide_False; [done|]. apply not_elem_of_nil.
    - cbn [foldM] in H. apply rbind_ok in H as (g1 & H1 & H). rewrite (IH _ H j), (Hh _ _ _ H1 j).
      destruct (decide (j = a)) as [->|Hj].
      + rewrite decide_False by done. rewrite decide_True by (by left). done.
      + destruct (decide (j ∈ l)); [rewrite decide_True by (by right)|rewrite decide_False by (intros [?|?]%elem_of_cons; done)]; done.
  Qed.

  Lemma rest_none n g j : (forall e, e ∈ row g j -> tgt e <> n) -> rest n (ends g j) = ends g j.
  Proof.
    unfold ends, rest. induction (row g j) as [|e r IH]; intros H; [done|]. cbn [map]. rewrite filter_cons. cbn [fst]. rewrite decide_True by (apply H; by left).
    rewrite IH; [done|]. intros e' He'. apply H. by right.
  Qed.

  Lemma neighbours_plain fl g n i e : fl <> Directed -> graph_ok fl (plain g) -> e ∈ row g i -> tgt e = n -> i ∈ map tgt (row g n).
  Proof.
    intros Hfl Hok He Ht. rewrite <-targets_plain, <-row_plain. assert (Hp : pe e ∈ row (plain g) i) by (rewrite row_plain; by apply elem_of_list_fmap_1).
    destruct fl; [done|..].
    - by eapply (reciprocal_neighbours (plain g) n i (pe e)).
    - by eapply (comp_ok_neighbours (plain g) n i (pe e)).
  Qed.

  Lemma metas_fix p f g j : metas (fix_edge_data p f g) j = metas g j.
  Proof.
    unfold metas, fix_edge_data, row. rewrite list_lookup_fmap. destruct (g !! j) as [r|]; [|done]. cbn. rewrite map_map. apply map_ext. intros e. by destruct (p (tgt e)).
  Qed.
  Lemma row_gone g n j : n < length g -> j <> n -> row (take n g ++ drop (S n) g) (down n j) = row g j.
  Proof.
    intros Hn Hj. unfold row, down. assert (Hl : length (take n g) = n) by (apply take_length_le; lia). destruct (decide (n < j)).
    - rewrite lookup_app_r by lia. rewrite Hl, lookup_drop. do 2 f_equal. lia.
    - rewrite lookup_app_l by lia. by rewrite lookup_take by lia.
  Qed.

  Lemma upd_len g i k F g' : upd g i k F = Ok g' -> length g' = length g.
  Proof. unfold upd. intros (r & _ & (e & _ & [= <-])%rbind_ok)%rbind_ok. apply insert_length. Qed.
  Lemma modify_comp_len f s ks g g' : modify_comp f s ks g = Ok g' -> length g' = length g.
  Proof.
    revert g. induction ks as [|k ks IH]; intros g H; [by injection H as <-|]. cbn [modify_comp] in H.
    apply rbind_ok in H as (e & He & (g1 & Hu & H)%rbind_ok). rewrite (IH _ H). by apply (upd_len _ _ _ _ _ Hu).
  Qed.
  Lemma erase_if_len g i p g' : erase_from_partition_if g i p = Ok g' -> length g' = length g.
  Proof. unfold erase_from_partition_if. intros (r & _ & [= <-])%rbind_ok. apply insert_length. Qed.
  Lemma erase_embedded_len fuel n p k g g' : erase_embedded fuel n p k g = Ok g' -> length g' = length g.
  Proof.
    revert k g. induction fuel as [|fuel IH]; intros k g H; cbn [erase_embedded] in H; apply rbind_ok in H as (r & _ & H);
      (destruct (k =? length r); [by injection H as <-|]); [done|]. apply rbind_ok in H as (e & _ & H). destruct (tgt e =? n); [|by apply IH in H].
    apply rbind_ok in H as (g1 & H1 & (g2 & H2 & H3)%rbind_ok). apply IH in H3. rewrite H3. unfold modify_from in H2. apply rbind_ok in H2 as (r2 & _ & H2).
    apply modify_comp_len in H2. rewrite H2. unfold erase_at in H1. apply rbind_ok in H1 as (r1 & _ & (e1 & _ & [= <-])%rbind_ok). apply insert_length.
  Qed.
  Lemma foldM_len {A} (h : graph (W * M) -> A -> res (graph (W * M))) l g g' :
    (forall g a g', h g a = Ok g' -> length g' = length g) -> foldM h l g = Ok g' -> length g' = length g.
  Proof.
    intros Hh. revert g. induction l as [|a l IH]; intros g H; [by injection H as <-|]. cbn [foldM] in H. apply rbind_ok in H as (g1 & H1 & H).
    rewrite (IH _ H). by apply (Hh _ _ _ H1).
  Qed.
  Lemma partners_len fl n g p g' : erase_partners fl n g p = Ok g' -> length g' = length g.
  Proof.
    destruct fl; cbn [erase_partners]; intros H; [by apply erase_if_len in H..|]. apply rbind_ok in H as (r & _ & H). by apply erase_embedded_len in H.
  Qed.

  Lemma erase_node_metas fl n g : graph_ok fl (plain g) -> n < length g ->
    exists g', erase_node fl n g = Ok g' /\ graph_ok fl (plain g') /\ length g' = length g - 1 /\
      forall j, j <> n -> metas g' (down n j) = map meta (filter (fun e => tgt e <> n) (row g j)).
  Proof.
    intros Hok Hn. destruct (@erase_node_all W _ fl (plain g) n Hok) as (h & Hh & [Hlen _] & Hho); [by rewrite order_plain|].
    pose proof (erase_node_plain fl n g) as Hp. rewrite Hh in Hp. destruct (erase_node fl n g) as [g'| | |] eqn:He; try done. injection Hp as <-.
    exists g'. split; [done|]. split; [done|]. split; [unfold plain in Hlen; by rewrite !map_length in Hlen|].
    intros j Hj. assert (Hr : map meta (filter (fun e => tgt e <> n) (row g j)) = map snd (rest n (ends g j))).
    { unfold ends, rest. induction (row g j) as [|e r IH]; [done|]. cbn [map]. rewrite !filter_cons. cbn [fst]. destruct (decide (tgt e <> n)); cbn [map snd]; by rewrite IH. }
    rewrite Hr. unfold erase_node in He. rewrite check_node_ok in He by done. cbn [rbind] in He. apply rbind_ok in He as (g1 & H1 & [= <-]).
    rewrite metas_fix.
    assert (Hlen1 : length g1 = length g).
    { destruct fl.
      - apply foldM_len in H1; [done|]. intros g0 a g0' H0. destruct (a =? n); [by injection H0 as <-|by apply erase_if_len in H0].
      - apply rbind_ok in H1 as (r & _ & H1). apply foldM_len in H1; [done|]. intros g0 a g0'. apply partners_len.
      - apply rbind_ok in H1 as (r & _ & H1). apply foldM_len in H1; [done|]. intros g0 a g0'. apply partners_len. }
    assert (Hm : metas (take n g1 ++ drop (S n) g1) (down n j) = metas g1 j) by (unfold metas; by rewrite row_gone by lia).
    rewrite Hm, metas_ends. f_equal. clear Hm Hlen Hh Hho Hr. assert (fl = Directed \/ fl <> Directed) as [-> |Hfl] by (destruct fl; auto).
    - pose proof (foldM_ends (fun g i => if i =? n then Ok g else erase_from_partition_if g i (fun e => tgt e =? n))
        (fun i l => if decide (i = n) then l else rest n l) (seq 0 (length g)) g g1) as Hf.
      rewrite Hf; [| |apply NoDup_ListNoDup, seq_NoDup|exact H1].
      + destruct (decide (j ∈ seq 0 (length g))) as [|Hns]; [by rewrite decide_False|]. unfold ends. rewrite row_ge; [done|]. rewrite elem_of_list_In, in_seq in Hns. lia.
      + intros g0 a g0' H0 i. destruct (Nat.eqb_spec a n) as [->|Ha].
        * injection H0 as <-. destruct (decide (i = n)); [|done]. done.
        * rewrite (erase_if_ends _ _ _ _ H0 i). destruct (decide (i = a)) as [->|]; [by rewrite decide_False|done].
    - assert (H2 : (let? r := rget g n in foldM (erase_partners fl n) (sorted_unique (filter (fun t => t <> n) (map tgt r))) g) = Ok g1) by (by destruct fl).
      rewrite rget_row in H2 by done. cbn [rbind] in H2.
      rewrite (foldM_ends (erase_partners fl n) (fun _ => rest n) _ _ _ (fun g a g' => partners_ends fl n g a g') (sorted_unique_NoDup _) H2 j).
      destruct (decide _) as [|Hnl]; [done|]. symmetry. apply rest_none. intros e Hin Ht. apply Hnl. apply sorted_unique_elem, elem_of_list_filter.
      split; [done|]. by eapply neighbours_plain.
  Qed.

  Lemma fix_up_metas i j g n g' : fix_up i j g n = Ok g' -> forall a, metas g' a = metas g a.
  Proof.
    unfold fix_up. intros (r & Hr & [= <-])%rbind_ok a. apply rget_inv in Hr as [Hl <-]. rewrite metas_insert by done.
    destruct (decide (a = n)) as [->|]; [|done]. by rewrite map_map.
  Qed.
  Lemma swap_nodes_metas fl i j g g' : swap_nodes fl i j g = Ok g' -> metas g' i = metas g j /\ metas g' j = metas g i /\ forall a, a <> i -> a <> j -> metas g' a = metas g a.
  Proof.
    unfold swap_nodes. intros (? & _ & (? & _ & H)%rbind_ok)%rbind_ok. destruct (Nat.eqb_spec i j) as [->|Hij]; [by injection H as <-|].
    apply rbind_ok in H as (rows & _ & (g1 & H1 & H2)%rbind_ok). apply rswap_ok_lookup in H2 as [_ H2].
    assert (Hm : forall a, metas g1 a = metas g a).
    { clear H2. revert g H1. induction rows as [|n rows IH]; intros g H1 a; [by injection H1 as <-|]. cbn [foldM] in H1. apply rbind_ok in H1 as (g2 & Hf & H1).
      rewrite (IH _ H1). by apply (fix_up_metas _ _ _ _ _ Hf). }
    assert (Hg : forall a, metas g' a = if decide (a = i) then metas g j else if decide (a = j) then metas g i else metas g a).
    { intros a. rewrite <-!Hm. unfold metas, row. rewrite H2. destruct (decide (a = i)); [done|]. by destruct (decide (a = j)). }
    split; [by rewrite Hg, decide_True|]. split; [by rewrite Hg, decide_False, decide_True by done|]. intros a Ha Hb. by rewrite Hg, decide_False, decide_False.
  Qed.

  Lemma insert_node_plain pos g : plain (insert_node pos g) = insert_node pos (plain g).
  Proof.
    unfold insert_node. rewrite order_plain, <-fix_plain. f_equal. unfold plain. rewrite map_app. cbn [map]. by rewrite firstn_map, skipn_map.
  Qed.
  Lemma insert_node_metas pos g j : let n := Nat.min pos (length g) in metas (insert_node pos g) n = [] /\ metas (insert_node pos g) (up n j) = metas g j.
  Proof.
    intros n. unfold insert_node. rewrite !metas_fix. change (order g) with (length g). fold n. assert (Hn : n <= length g) by lia.
    assert (Hl : length (take n g) = n) by (by apply take_length_le). unfold metas, row, up. split.
    - rewrite lookup_app_r by lia. by rewrite Hl, Nat.sub_diag.
    - destruct (decide (n <= j)).
      + rewrite lookup_app_r by lia. rewrite Hl. replace (j + 1 - n) with (S (j - n)) by lia. cbn [lookup list_lookup]. change (drop n g !! (j - n)) with (drop n g !! (j - n)).
        rewrite lookup_drop. do 3 f_equal. lia.
      + rewrite lookup_app_l by lia. by rewrite lookup_take by lia.
  Qed.
End nodes.
