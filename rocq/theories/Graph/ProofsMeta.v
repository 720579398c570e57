(** Proofs about the meta data of edges (C117). *)
From stdpp Require Import list.
From Verif.Base Require Import Outcome ListLemmas.
From Verif.Graph Require Import Model Spec ModelMeta SpecMeta ProofsBase ProofsPartial ProofsComp ProofsEmb.
Local Open Scope res_scope.

Section meta.
  Context {W M : Type} `{!EqDecision W}.
  Implicit Types g : graph (W * M).

  Definition pe (e : edge (W * M)) : edge W := Edge (tgt e) (comp e) (fst (wt e)).
  Definition rmap {A B} (f : A -> B) (r : res A) : res B := match r with Ok x => Ok (f x) | Throw x => Throw x | UB => UB | NoFuel => NoFuel end.

  Lemma rmap_bind {A B C} (f : B -> C) (r : res A) (k : A -> res B) : rmap f (rbind r k) = rbind r (fun x => rmap f (k x)).
  Proof. by destruct r. Qed.
  Lemma bind_rmap {A B C} (f : A -> B) (r : res A) (k : B -> res C) : rbind (rmap f r) k = rbind r (fun x => k (f x)).
  Proof. by destruct r. Qed.
  Lemma bind_ext {A B} (r : res A) (k k' : A -> res B) : (forall x, r = Ok x -> k x = k' x) -> rbind r k = rbind r k'.
  Proof. destruct r; simpl; auto. Qed.

  Lemma rget_map {A B} (f : A -> B) l i : rget (map f l) i = rmap f (rget l i).
  Proof. unfold rget. rewrite list_lookup_fmap. by destruct (l !! i). Qed.
  Lemma plain_insert g i r : plain (<[i := r]> g) = <[i := map pe r]> (plain g).
  Proof. apply list_fmap_insert. Qed.
  Lemma rget_plain g i : rget (plain g) i = rmap (map pe) (rget g i).
  Proof. apply rget_map. Qed.
  Lemma order_plain g : order (plain g) = order g.
  Proof. apply map_length. Qed.
  Lemma check_plain g n : check_node (plain g) n = check_node g n.
  Proof. unfold check_node. by rewrite order_plain. Qed.

  Lemma get_plain g i k : get (plain g) i k = rmap pe (get g i k).
  Proof. unfold get. rewrite rget_plain, bind_rmap, rmap_bind. apply bind_ext. intros r _. apply rget_map. Qed.
  Lemma upd_plain g i k F F' : (forall e, pe (F e) = F' (pe e)) -> upd (plain g) i k F' = plainly (upd g i k F).
  Proof.
    intros HF. unfold upd. rewrite rget_plain, bind_rmap. destruct (rget g i) as [r| | |]; try done. cbn [rbind].
    rewrite rget_map, bind_rmap. destruct (rget r k) as [e| | |]; try done. cbn [rbind plainly]. rewrite plain_insert. f_equal. f_equal.
    change (map pe (<[k:=F e]> r)) with (pe <$> (<[k:=F e]> r)). rewrite list_fmap_insert. by rewrite HF.
  Qed.
  Lemma push_plain g i e : push (plain g) i (pe e) = plainly (push g i e).
  Proof.
    unfold push. rewrite rget_plain, bind_rmap. destruct (rget g i) as [r| | |]; try done. cbn [rbind plainly]. rewrite plain_insert. by rewrite map_app.
  Qed.
  Lemma insert_at_plain g i k e : insert_at (plain g) i k (pe e) = plainly (insert_at g i k e).
  Proof.
    unfold insert_at. rewrite rget_plain, bind_rmap. destruct (rget g i) as [r| | |]; try done. cbn [rbind]. rewrite map_length.
    destruct (k <=? length r); [|done]. cbn [plainly]. rewrite plain_insert. rewrite map_app. cbn [map]. rewrite <-firstn_map, <-skipn_map. done.
  Qed.
  Lemma erase_at_plain g i k : erase_at (plain g) i k = plainly (erase_at g i k).
  Proof.
    unfold erase_at. rewrite rget_plain, bind_rmap. destruct (rget g i) as [r| | |]; try done. cbn [rbind].
    rewrite rget_map, bind_rmap. destruct (rget r k) as [e| | |]; try done. cbn [rbind plainly]. rewrite plain_insert, map_app. by rewrite <-firstn_map, <-skipn_map.
  Qed.
  Lemma modify_comp_plain f s ks g : modify_comp f s ks (plain g) = plainly (modify_comp f s ks g).
  Proof.
    revert g. induction ks as [|k ks IH]; intros g; [done|]. cbn [modify_comp]. rewrite get_plain, bind_rmap.
    destruct (get g s k) as [e| | |]; try done. cbn [rbind].
    set (pos := if tgt e =? s then _ else _). change (tgt (pe e)) with (tgt e). change (comp (pe e)) with (comp e). fold pos.
    rewrite (upd_plain g (tgt e) pos (fun p => set_comp (f (comp p)) p)) by done.
    destruct (upd g (tgt e) pos (fun p => set_comp (f (comp p)) p)) as [g1| | |]; try done. cbn [rbind plainly]. apply IH.
  Qed.
  Lemma modify_from_plain f s k g : modify_from f s k (plain g) = plainly (modify_from f s k g).
  Proof.
    unfold modify_from. rewrite rget_plain, bind_rmap. destruct (rget g s) as [r| | |]; try done. cbn [rbind]. rewrite map_length. apply modify_comp_plain.
  Qed.
  Lemma find_from_map (p : nat -> edge W -> bool) k (l : list (edge (W * M))) : find_from p k (map pe l) = find_from (fun i e => p i (pe e)) k l.
  Proof. revert k. induction l as [|e l IH]; intros k; [done|]. cbn [map find_from]. by rewrite IH. Qed.

  Lemma bind_plainly (r : res (graph (W * M))) (k : graph (W * M) -> res (graph (W * M))) (k' : graph W -> res (graph W)) :
    (forall g, k' (plain g) = plainly (k g)) -> rbind (plainly r) k' = plainly (rbind r k).
  Proof. intros H. destruct r; simpl; auto. Qed.

  Lemma set_meta_plain s k m g : set_edge_meta_data s k m g = UB \/ plainly (set_edge_meta_data s k m g) = Ok (plain g).
  Proof.
    unfold set_edge_meta_data, upd. destruct (rget g s) as [r| | |] eqn:Er; [|by (unfold rget in Er; destruct (g !! s))|by left|by (unfold rget in Er; destruct (g !! s))].
    cbn [rbind]. destruct (rget r k) as [e| | |] eqn:Ee; [|by (unfold rget in Ee; destruct (r !! k))|by left|by (unfold rget in Ee; destruct (r !! k))].
    right. cbn [rbind plainly]. rewrite plain_insert. f_equal. apply rget_ok in Er, Ee.
    apply list_insert_id. unfold plain. rewrite list_lookup_fmap, Er. cbn. f_equal.
    change (map pe (<[k:=set_meta m e]> r)) with (pe <$> <[k:=set_meta m e]> r). rewrite list_fmap_insert. change (pe (set_meta m e)) with (pe e).
    symmetry. apply list_insert_id. by rewrite list_lookup_fmap, Ee.
  Qed.

  Lemma add_plain fl n1 n2 w m g : add_to_partition fl n1 n2 w (plain g) = plainly (add_to_partition fl n1 n2 (w, m) g).
  Proof.
    destruct fl; cbn [add_to_partition]; try apply (push_plain g n1 (Edge n2 0 (w, m))).
    rewrite rget_plain, bind_rmap. destruct (rget g n2) as [r| | |]; try done. cbn [rbind]. rewrite map_length.
    apply (push_plain g n1 (Edge n2 (if n1 =? n2 then length r + 1 else length r) (w, m))).
  Qed.
  Lemma reciprocal_plain fl n1 n2 m2 g : reciprocal_join fl n1 n2 (plain g) = plainly (reciprocal_join_m fl n1 n2 m2 g).
  Proof.
    unfold reciprocal_join, reciprocal_join_m. rewrite rget_plain, bind_rmap. destruct (rget g n1) as [r| | |]; try done. cbn [rbind].
    rewrite map_length, rget_map, bind_rmap. destruct (rget r (length r - 1)) as [e| | |]; try done. cbn [rbind].
    destruct fl; [apply (push_plain g n2 (Edge n1 0 (weight e, m2)))..|apply (push_plain g n2 (Edge n1 (length r - 1) (weight e, m2)))].
  Qed.
  Lemma join_plain fl n1 n2 m1 m2 w g : plainly (join_m fl n1 n2 m1 m2 w g) = join fl n1 n2 w (plain g).
  Proof.
    unfold join, join_m. rewrite !check_plain. destruct (check_node g n1) as [[]| | |]; try done. cbn [rbind].
    destruct (check_node g n2) as [[]| | |]; try done. cbn [rbind]. rewrite (add_plain fl n1 n2 w m1 g). symmetry. apply bind_plainly.
    intros g1. destruct fl; [done|apply reciprocal_plain..].
  Qed.

  Lemma insert_to_plain i1 k1 n2 pos2 w m g : insert_to_partition i1 k1 n2 pos2 w (plain g) = plainly (insert_to_partition i1 k1 n2 pos2 (w, m) g).
  Proof.
    unfold insert_to_partition. pose proof (insert_at_plain g i1 k1 (Edge n2 pos2 (w, m))) as Hi. cbn [pe tgt comp wt fst] in Hi. unfold pe in Hi. cbn [tgt comp wt fst] in Hi. rewrite Hi. apply bind_plainly. intros g1. apply modify_from_plain.
  Qed.
  Lemma insert_reciprocal_plain i1 k1 i2 k2 m2 g : insert_reciprocal i1 k1 i2 k2 (plain g) = plainly (insert_reciprocal_m i1 k1 i2 k2 m2 g).
  Proof.
    unfold insert_reciprocal, insert_reciprocal_m. rewrite get_plain, bind_rmap. destruct (get g i1 k1) as [e| | |]; try done. cbn [rbind].
    pose proof (insert_at_plain g i2 k2 (Edge i1 k1 (weight e, m2))) as Hi. unfold pe in Hi |- *. cbn [tgt comp wt fst] in Hi |- *. unfold weight in Hi |- *. rewrite Hi. apply bind_plainly. intros g1. apply modify_from_plain.
  Qed.
  Lemma insert_loop_plain n k1 pos2 m2 g : insert_reciprocal_loop n k1 pos2 (plain g) = plainly (insert_reciprocal_loop_m n k1 pos2 m2 g).
  Proof.
    unfold insert_reciprocal_loop, insert_reciprocal_loop_m. set (pos1 := if pos2 <=? k1 then _ else _).
    rewrite get_plain, bind_rmap. destruct (get g n k1) as [e| | |]; try done. cbn [rbind].
    pose proof (insert_at_plain g n pos2 (Edge n pos1 (weight e, m2))) as Hi. unfold pe in Hi |- *. cbn [tgt comp wt fst] in Hi |- *. unfold weight in Hi |- *. rewrite Hi. apply bind_plainly. intros g1.
    destruct (pos1 <? pos2); [apply modify_from_plain|]. rewrite modify_comp_plain. apply bind_plainly. intros g2. apply modify_from_plain.
  Qed.
  Lemma insert_join_plain i1 k1 i2 k2 m1 m2 w g : plainly (insert_join_m i1 k1 i2 k2 m1 m2 w g) = insert_join i1 k1 i2 k2 w (plain g).
  Proof.
    symmetry. unfold insert_join, insert_join_m. destruct (i1 =? i2).
    - unfold insert_join_loop, insert_join_loop_m. rewrite rget_plain, bind_rmap. destruct (rget g i1) as [r| | |]; try done. cbn [rbind].
      rewrite map_length. destruct (length r + 1 <? k2); [done|]. rewrite (insert_to_plain i1 k1 i1 k2 w m1 g). apply bind_plainly. intros g1. apply insert_loop_plain.
    - rewrite (insert_to_plain i1 k1 i2 k2 w m1 g). apply bind_plainly. intros g1. apply insert_reciprocal_plain.
  Qed.

  Lemma erase_plain fl s k g : plainly (erase_edge_m fl s k g) = erase_edge fl s k (plain g).
  Proof.
    symmetry. unfold erase_edge, erase_edge_m. rewrite order_plain, check_plain. destruct (order g =? 0); [done|].
    destruct (check_node g s) as [[]| | |]; try done. cbn [rbind]. rewrite rget_plain, bind_rmap. destruct (rget g s) as [r| | |]; try done. cbn [rbind].
    rewrite map_length. destruct (k =? length r); [done|]. rewrite rget_map, bind_rmap. destruct (rget r k) as [e| | |]; try done. cbn [rbind].
    change (tgt (pe e)) with (tgt e). change (comp (pe e)) with (comp e). change (wt (pe e)) with (weight e). destruct fl.
    - apply erase_at_plain.
    - destruct (s =? tgt e); cbn [negb].
      + rewrite find_from_map. change (fun i (e0 : edge (W * M)) => negb (i =? k) && is_partner s (weight e) (pe e0)) with (fun j (e' : edge (W * M)) => negb (j =? k) && is_partner_m s (weight e) e').
        destruct (find_from _ 0 r) as [q|]; [|done]. rewrite erase_at_plain. apply bind_plainly. intros g1. apply erase_at_plain.
      + rewrite check_plain. destruct (check_node g (tgt e)) as [[]| | |]; try done. cbn [rbind].
        rewrite rget_plain, bind_rmap. destruct (rget g (tgt e)) as [rt| | |]; try done. cbn [rbind]. rewrite find_from_map.
        change (fun (_ : nat) (e0 : edge (W * M)) => is_partner s (weight e) (pe e0)) with (fun (_ : nat) (e' : edge (W * M)) => is_partner_m s (weight e) e').
        destruct (find_from _ 0 rt) as [q|]; [|done]. rewrite erase_at_plain. apply bind_plainly. intros g1. apply erase_at_plain.
    - destruct (s =? tgt e); cbn [negb]; [destruct ((comp e =? S k) || (k =? S (comp e)))|].
      + rewrite erase_at_plain. apply bind_plainly. intros g1. rewrite erase_at_plain. apply bind_plainly. intros g2. apply modify_from_plain.
      + rewrite erase_at_plain. apply bind_plainly. intros g1. rewrite modify_from_plain. apply bind_plainly. intros g2.
        rewrite erase_at_plain. apply bind_plainly. intros g3. apply modify_from_plain.
      + rewrite erase_at_plain. apply bind_plainly. intros g1. rewrite modify_from_plain. apply bind_plainly. intros g2.
        rewrite erase_at_plain. apply bind_plainly. intros g3. apply modify_from_plain.
  Qed.

  (** ** What becomes of the meta data *)

  Lemma metas_insert g i r j : i < length g -> metas (<[i := r]> g) j = if decide (j = i) then map meta r else metas g j.
  Proof. intros H. unfold metas. rewrite row_insert by done. by destruct (decide (j = i)). Qed.
  Lemma rget_inv g i r : rget g i = Ok r -> i < length g /\ row g i = r.
  Proof. intros H%rget_ok. split; [by eapply lookup_lt_Some|by apply row_lookup]. Qed.

  Lemma upd_metas g i k F g' : upd g i k F = Ok g' -> (forall e, meta (F e) = meta e) -> forall j, metas g' j = metas g j.
  Proof.
    unfold upd. intros (r & Hr & (e & He & [= <-])%rbind_ok)%rbind_ok HF j. apply rget_inv in Hr as [Hl <-]. apply rget_ok in He.
    rewrite metas_insert by done. destruct (decide (j = i)) as [->|]; [|done].
    change (map meta (<[k:=F e]> (row g i))) with (meta <$> <[k:=F e]> (row g i)). rewrite list_fmap_insert, HF.
    unfold metas. apply list_insert_id. by rewrite list_lookup_fmap, He.
  Qed.
  Lemma modify_comp_metas f s ks g g' : modify_comp f s ks g = Ok g' -> forall j, metas g' j = metas g j.
  Proof.
    revert g. induction ks as [|k ks IH]; intros g H j; [by injection H as <-|]. cbn [modify_comp] in H.
    apply rbind_ok in H as (e & He & (g1 & Hu & H)%rbind_ok). rewrite (IH _ H). by apply (upd_metas _ _ _ _ _ Hu).
  Qed.
  Lemma modify_from_metas f s k g g' : modify_from f s k g = Ok g' -> forall j, metas g' j = metas g j.
  Proof. unfold modify_from. intros (r & _ & H)%rbind_ok. by apply (modify_comp_metas _ _ _ _ _ H). Qed.
  Lemma push_metas g i e g' : push g i e = Ok g' -> forall j, metas g' j = metas g j ++ if decide (j = i) then [meta e] else [].
  Proof.
    unfold push. intros (r & Hr & [= <-])%rbind_ok j. apply rget_inv in Hr as [Hl <-]. rewrite metas_insert by done.
    destruct (decide (j = i)) as [->|]; [by rewrite map_app|by rewrite app_nil_r].
  Qed.
  Lemma insert_at_metas g i k e g' : insert_at g i k e = Ok g' -> forall j, metas g' j = if decide (j = i) then having k (meta e) (metas g i) else metas g j.
  Proof.
    unfold insert_at. intros (r & Hr & H)%rbind_ok j. apply rget_inv in Hr as [Hl <-]. destruct (k <=? _); [|done]. injection H as <-.
    rewrite metas_insert by done. destruct (decide (j = i)); [|done]. rewrite map_app. unfold having, metas. cbn [map]. by rewrite firstn_map, skipn_map.
  Qed.
  Lemma erase_at_metas g i k g' : erase_at g i k = Ok g' ->
    k < length (metas g i) /\ forall j, metas g' j = if decide (j = i) then without k (metas g i) else metas g j.
  Proof.
    unfold erase_at. intros (r & Hr & (e & He & [= <-])%rbind_ok)%rbind_ok. apply rget_inv in Hr as [Hl <-]. apply rget_ok in He. split.
    { unfold metas. rewrite map_length. by eapply lookup_lt_Some. }
    intros j. rewrite metas_insert by done. destruct (decide (j = i)); [|done]. rewrite map_app. unfold without, metas. by rewrite firstn_map, skipn_map.
  Qed.

  Lemma set_metas s k m g g' : set_edge_meta_data s k m g = Ok g' -> forall j, metas g' j = if decide (j = s) then <[k := m]> (metas g s) else metas g j.
  Proof.
    unfold set_edge_meta_data, upd. intros (r & Hr & (e & He & [= <-])%rbind_ok)%rbind_ok j. apply rget_inv in Hr as [Hl <-].
    rewrite metas_insert by done. destruct (decide (j = s)) as [->|]; [|done].
    change (map meta (<[k:=set_meta m e]> (row g s))) with (meta <$> <[k:=set_meta m e]> (row g s)). by rewrite list_fmap_insert.
  Qed.
  Lemma mutate_metas s k f g g' : mutate_edge_meta_data s k f g = Ok g' -> forall j, metas g' j = if decide (j = s) then alter f k (metas g s) else metas g j.
  Proof.
    unfold mutate_edge_meta_data, upd. intros (r & Hr & (e & He & [= <-])%rbind_ok)%rbind_ok j. apply rget_inv in Hr as [Hl <-]. apply rget_ok in He.
    rewrite metas_insert by done. destruct (decide (j = s)) as [->|]; [|done].
    change (map meta (<[k:=set_meta (f (meta e)) e]> (row g s))) with (meta <$> <[k:=set_meta (f (meta e)) e]> (row g s)). rewrite list_fmap_insert.
    unfold metas. change (map (fun e0 => snd (wt e0)) (row g s)) with (meta <$> row g s). apply list_eq. intros l.
    destruct (decide (l = k)) as [->|Hl'].
    - rewrite list_lookup_insert by (rewrite fmap_length; by eapply lookup_lt_Some). rewrite list_lookup_alter, list_lookup_fmap, He. done.
    - rewrite list_lookup_insert_ne by done. by rewrite list_lookup_alter_ne.
  Qed.

  Lemma join_metas fl n1 n2 m1 m2 w g g' : join_m fl n1 n2 m1 m2 w g = Ok g' ->
    forall j, metas g' j = metas g j ++ (if decide (j = n1) then [m1] else []) ++ match fl with Directed => [] | _ => if decide (j = n2) then [m2] else [] end.
  Proof.
    unfold join_m. intros (? & _ & (? & _ & (g1 & Ha & H)%rbind_ok)%rbind_ok)%rbind_ok j.
    assert (H1 : forall j, metas g1 j = metas g j ++ if decide (j = n1) then [m1] else []).
    { destruct fl; cbn [add_to_partition] in Ha; [by apply (push_metas _ _ _ _ Ha)..|]. apply rbind_ok in Ha as (r2 & _ & Ha).
      intros i. rewrite (push_metas _ _ _ _ Ha i). done. }
    rewrite app_assoc, <-H1.
    assert (H2 : fl <> Directed -> metas g' j = metas g1 j ++ if decide (j = n2) then [m2] else []).
    { intros Hfl. assert (Hr : reciprocal_join_m fl n1 n2 m2 g1 = Ok g') by (by destruct fl). unfold reciprocal_join_m in Hr.
      apply rbind_ok in Hr as (r1 & _ & (e & _ & Hr)%rbind_ok). destruct fl; [done|..]; by rewrite (push_metas _ _ _ _ Hr j). }
    destruct fl; [injection H as <-; by rewrite app_nil_r|by rewrite H2..].
  Qed.

  Lemma insert_to_metas i1 k1 n2 pos2 w m g g' : insert_to_partition i1 k1 n2 pos2 (w, m) g = Ok g' ->
    forall j, metas g' j = if decide (j = i1) then having k1 m (metas g i1) else metas g j.
  Proof.
    unfold insert_to_partition. intros (g1 & Hi & Hm)%rbind_ok j. rewrite (modify_from_metas _ _ _ _ _ Hm j). by rewrite (insert_at_metas _ _ _ _ _ Hi j).
  Qed.
  Lemma insert_join_metas i1 k1 i2 k2 m1 m2 w g g' : insert_join_m i1 k1 i2 k2 m1 m2 w g = Ok g' -> i1 <> i2 ->
    metas g' i1 = having k1 m1 (metas g i1) /\ metas g' i2 = having k2 m2 (metas g i2) /\ forall j, j <> i1 -> j <> i2 -> metas g' j = metas g j.
  Proof.
    intros H Hne. unfold insert_join_m in H. rewrite (proj2 (Nat.eqb_neq _ _) Hne) in H. apply rbind_ok in H as (g1 & Hi & H).
    unfold insert_reciprocal_m in H. apply rbind_ok in H as (e & _ & (g2 & H2 & H3)%rbind_ok).
    assert (Hall : forall j, metas g' j = if decide (j = i2) then having k2 m2 (metas g1 i2) else metas g1 j).
    { intros j. rewrite (modify_from_metas _ _ _ _ _ H3 j). by rewrite (insert_at_metas _ _ _ _ _ H2 j). }
    pose proof (insert_to_metas _ _ _ _ _ _ _ _ Hi) as H1. split; [|split].
    - rewrite Hall, decide_False by done. by rewrite H1, decide_True.
    - rewrite Hall, decide_True by done. by rewrite H1, decide_False.
    - intros j Hj1 Hj2. rewrite Hall, decide_False by done. by rewrite H1, decide_False.
  Qed.
  Lemma insert_loop_metas n k1 k2 m1 m2 w g g' : insert_join_m n k1 n k2 m1 m2 w g = Ok g' ->
    metas g' n = having k2 m2 (having k1 m1 (metas g n)) /\ forall j, j <> n -> metas g' j = metas g j.
  Proof.
    intros H. unfold insert_join_m in H. rewrite Nat.eqb_refl in H. unfold insert_join_loop_m in H. apply rbind_ok in H as (r & _ & H).
    destruct (_ <? _); [done|]. apply rbind_ok in H as (g1 & Hi & H). pose proof (insert_to_metas _ _ _ _ _ _ _ _ Hi) as H1.
    unfold insert_reciprocal_loop_m in H. set (pos1 := if k2 <=? k1 then _ else _) in H. apply rbind_ok in H as (e & _ & (g2 & H2 & H3)%rbind_ok).
    assert (Hm : forall j, metas g' j = metas g2 j).
    { destruct (pos1 <? k2); [by apply (modify_from_metas _ _ _ _ _ H3)|]. apply rbind_ok in H3 as (g3 & H3 & H4). intros j.
      rewrite (modify_from_metas _ _ _ _ _ H4 j). by apply (modify_comp_metas _ _ _ _ _ H3). }
    split.
    - rewrite Hm, (insert_at_metas _ _ _ _ _ H2 n), decide_True by done. rewrite H1, decide_True by done. done.
    - intros j Hj. rewrite Hm, (insert_at_metas _ _ _ _ _ H2 j), decide_False by done. by rewrite H1, decide_False.
  Qed.

  Lemma without_nil {A} k : without k (@nil A) = [].
  Proof. unfold without. by rewrite take_nil, drop_nil. Qed.
  Lemma without_swap {A} lo hi (l : list A) : lo < hi -> without (hi - 1) (without lo l) = without lo (without hi l).
  Proof.
    revert hi l. induction lo as [|lo IH]; intros [|hi] l Hlt; try lia.
    - destruct l as [|x l]; [by rewrite !without_nil|]. unfold without. cbn. by rewrite Nat.sub_0_r.
    - destruct l as [|x l]; [by rewrite !without_nil|].
      destruct hi as [|hi]; [lia|]. change (without (S lo) (x :: l)) with (x :: without lo l). change (without (S (S hi)) (x :: l)) with (x :: without (S hi) l).
      replace (S (S hi) - 1) with (S (S hi - 1)) by lia. change (x :: without (S hi - 1) (without lo l) = x :: without lo (without (S hi) l)).
      f_equal. apply IH. lia.
  Qed.

  Lemma find_from_some (p : nat -> edge (W * M) -> bool) k l q : find_from p k l = Some q -> exists e, l !! (q - k) = Some e /\ k <= q /\ p q e = true.
  Proof.
    revert k. induction l as [|e l IH]; intros k H; [done|]. cbn [find_from] in H. destruct (p k e) eqn:E.
    - injection H as <-. exists e. by rewrite Nat.sub_diag.
    - apply IH in H as (e' & Hl & Hk & Hp). exists e'. split; [|split; [lia|done]]. by replace (q - k) with (S (q - S k)) by lia.
  Qed.

  Lemma row_plain g i : row (plain g) i = map pe (row g i).
  Proof. unfold row, plain. rewrite list_lookup_fmap. by destruct (g !! i). Qed.

  Lemma erase_directed_metas s k e g g' : row g s !! k = Some e -> erase_edge_m Directed s k g = Ok g' ->
    metas g' s = without k (metas g s) /\ forall j, j <> s -> metas g' j = metas g j.
  Proof.
    intros Hk H. unfold erase_edge_m in H. pose proof (row_some_lt _ _ _ _ Hk) as Hs. pose proof (lookup_lt_Some _ _ _ Hk) as Hl.
    destruct (Nat.eqb_spec (order g) 0); [unfold order in *; lia|]. rewrite check_node_ok in H by done. cbn [rbind] in H. rewrite rget_row in H by done. cbn [rbind] in H.
    destruct (Nat.eqb_spec k (length (row g s))); [lia|]. rewrite (proj2 (rget_ok _ _ _) Hk) in H. cbn [rbind] in H.
    apply erase_at_metas in H as [_ H]. split; [by rewrite H, decide_True|]. intros j Hj. by rewrite H, decide_False.
  Qed.

  Lemma erase_metas fl s k e g g' : fl <> Directed -> graph_ok fl (plain g) -> row g s !! k = Some e -> erase_edge_m fl s k g = Ok g' ->
    exists q e', row g (tgt e) !! q = Some e' /\ (tgt e, q) <> (s, k) /\ tgt e' = s /\ weight e' = weight e /\ (fl = Embedded -> q = comp e) /\
      gone_metas g g' s k (tgt e) q.
  Proof.
    intros Hfl Hok Hk H. unfold erase_edge_m in H. pose proof (row_some_lt _ _ _ _ Hk) as Hs. pose proof (lookup_lt_Some _ _ _ Hk) as Hl.
    destruct (Nat.eqb_spec (order g) 0); [unfold order in *; lia|]. rewrite check_node_ok in H by done. cbn [rbind] in H. rewrite rget_row in H by done. cbn [rbind] in H.
    destruct (Nat.eqb_spec k (length (row g s))); [lia|]. rewrite (proj2 (rget_ok _ _ _) Hk) in H. cbn [rbind] in H.
    destruct fl; [done|..].
    - destruct (Nat.eqb_spec s (tgt e)) as [Hst|Hst]; cbn [negb] in H.
      + destruct (find_from _ 0 (row g s)) as [q|] eqn:Ef; [|done]. apply find_from_some in Ef as (e' & He' & _ & Hp).
        rewrite Nat.sub_0_r in He'. apply andb_true_iff in Hp as [Hqk Hp]. apply negb_true_iff, Nat.eqb_neq in Hqk.
        apply andb_true_iff in Hp as [Ht Hw]. apply Nat.eqb_eq in Ht. apply bool_decide_eq_true in Hw.
        exists q, e'. rewrite <-Hst. split; [done|]. split; [congruence|]. split; [done|]. split; [done|]. split; [done|].
        unfold gone_metas. rewrite decide_True by done. apply rbind_ok in H as (g1 & H1 & H2). apply erase_at_metas in H1 as [_ H1]. apply erase_at_metas in H2 as [_ H2].
        split.
        * rewrite H2, decide_True by done. rewrite H1, decide_True by done. destruct (Nat.ltb_spec q k).
          { rewrite Nat.min_r, Nat.max_l by lia. apply without_swap. lia. } { by rewrite Nat.min_l, Nat.max_r by lia. }
        * intros j Hj. rewrite H2, decide_False by done. by rewrite H1, decide_False.
      + apply rbind_ok in H as (u & Hu & H). unfold check_node in Hu. destruct (Nat.ltb_spec (tgt e) (order g)) as [Ht|]; [|done].
        rewrite rget_row in H by done. cbn [rbind] in H. destruct (find_from _ 0 (row g (tgt e))) as [q|] eqn:Ef; [|done].
        apply find_from_some in Ef as (e' & He' & _ & Hp). rewrite Nat.sub_0_r in He'. apply andb_true_iff in Hp as [Ht' Hw]. apply Nat.eqb_eq in Ht'. apply bool_decide_eq_true in Hw.
        exists q, e'. split; [done|]. split; [congruence|]. split; [done|]. split; [done|]. split; [done|].
        unfold gone_metas. rewrite decide_False by done. apply rbind_ok in H as (g1 & H1 & H2). apply erase_at_metas in H1 as [_ H1]. apply erase_at_metas in H2 as [_ H2].
        split; [by rewrite H2, decide_False, H1, decide_True by done|]. split; [by rewrite H2, decide_True, H1, decide_False by done|].
        intros j Hj1 Hj2. by rewrite H2, decide_False, H1, decide_False by done.
    - assert (Hp : row (plain g) s !! k = Some (pe e)) by (by rewrite row_plain, list_lookup_fmap, Hk).
      destruct (Hok _ _ _ Hp) as (p' & Hp' & Hb1 & Hb2 & Hb3 & Hne). change (tgt (pe e)) with (tgt e) in *. change (comp (pe e)) with (comp e) in *.
      rewrite row_plain, list_lookup_fmap in Hp'. destruct (row g (tgt e) !! comp e) as [e'|] eqn:He'; [|done]. cbn in Hp'. injection Hp' as <-.
      exists (comp e), e'. split; [done|].
      split; [done|]. split; [done|]. split; [done|]. split; [done|].
      unfold gone_metas. destruct (Nat.eqb_spec s (tgt e)) as [Hst|Hst]; cbn [negb] in H.
      + rewrite decide_True by done. destruct ((comp e =? S k) || (k =? S (comp e))) eqn:Ea.
        * apply rbind_ok in H as (g1 & H1 & (g2 & H2 & H3)%rbind_ok). pose proof (modify_from_metas _ _ _ _ _ H3) as Hm.
          apply erase_at_metas in H1 as [_ H1]. apply erase_at_metas in H2 as [_ H2]. split.
          { rewrite Hm, H2, decide_True, H1, decide_True by done. rewrite <-(without_swap (Nat.min k (comp e)) (Nat.max k (comp e))) by (apply orb_true_iff in Ea as [Ea|Ea]; apply Nat.eqb_eq in Ea; lia).
            f_equal. apply orb_true_iff in Ea as [Ea|Ea]; apply Nat.eqb_eq in Ea; lia. }
          { intros j Hj. by rewrite Hm, H2, decide_False, H1, decide_False by done. }
        * apply rbind_ok in H as (g1 & H1 & (g2 & H2 & (g3 & H3 & H4)%rbind_ok)%rbind_ok). pose proof (modify_from_metas _ _ _ _ _ H2) as Hm2.
          pose proof (modify_from_metas _ _ _ _ _ H4) as Hm4. apply erase_at_metas in H1 as [_ H1]. apply erase_at_metas in H3 as [_ H3]. split.
          { by rewrite Hm4, H3, decide_True, Hm2, H1, decide_True by done. }
          { intros j Hj. by rewrite Hm4, H3, decide_False, Hm2, H1, decide_False by done. }
      + rewrite decide_False by done. apply rbind_ok in H as (g1 & H1 & (g2 & H2 & (g3 & H3 & H4)%rbind_ok)%rbind_ok). pose proof (modify_from_metas _ _ _ _ _ H2) as Hm2.
        pose proof (modify_from_metas _ _ _ _ _ H4) as Hm4. apply erase_at_metas in H1 as [_ H1]. apply erase_at_metas in H3 as [_ H3].
        split; [by rewrite Hm4, H3, decide_False, Hm2, H1, decide_True by done|]. split; [by rewrite Hm4, H3, decide_True, Hm2, H1, decide_False by done|].
        intros j Hj1 Hj2. by rewrite Hm4, H3, decide_False, Hm2, H1, decide_False by done.
  Qed.

  Lemma erase_done fl s k e g : fl <> Directed -> graph_ok fl (plain g) -> row g s !! k = Some e ->
    exists g' q e', erase_edge_m fl s k g = Ok g' /\ graph_ok fl (plain g') /\
      row g (tgt e) !! q = Some e' /\ (tgt e, q) <> (s, k) /\ tgt e' = s /\ weight e' = weight e /\ (fl = Embedded -> q = comp e) /\ gone_metas g g' s k (tgt e) q.
  Proof.
    intros Hfl Hok Hk. assert (Hp : row (plain g) s !! k = Some (pe e)) by (by rewrite row_plain, list_lookup_fmap, Hk).
    assert (exists h, erase_edge fl s k (plain g) = Ok h /\ graph_ok fl h) as (h & Hh & Hgo).
    { destruct fl; [done|..].
      - destruct (erase_edge_undirected_ok s k (pe e) (plain g) Hok Hp) as (h & Hh & Hr & _). by exists h.
      - destruct (erase_edge_embedded_ok s k (pe e) (plain g) Hok Hp) as (h & Hh & Hr & _). by exists h. }
    pose proof (erase_plain fl s k g) as He. rewrite Hh in He. destruct (erase_edge_m fl s k g) as [g'| | |] eqn:Em; try done. injection He as <-.
    destruct (erase_metas fl s k e g g' Hfl Hok Hk Em) as (q & e' & H). exists g', q, e'. tauto.
  Qed.

  Lemma told_unique s k e g t q e' : told_apart g -> row g s !! k = Some e -> row g t !! q = Some e' -> (t, q) <> (s, k) -> weight e' = weight e ->
    forall i l e2, (i, l) <> (s, k) -> row g i !! l = Some e2 -> weight e2 = weight e -> (i, l) = (t, q).
  Proof.
    intros Ht Hk Hq Hne Hw i l e2 Hil H2 Hw2. destruct (decide ((i, l) = (t, q))) as [|Hd]; [done|]. exfalso.
    apply (Ht (weight e) s k t q i l); [congruence..| | |].
    - by rewrite Hk.
    - rewrite Hq. cbn. by f_equal.
    - rewrite H2. cbn. by f_equal.
  Qed.

  Lemma set_both s k m g g' : set_edge_meta_data s k m g = Ok g' ->
    plain g' = plain g /\ forall j, metas g' j = if decide (j = s) then <[k := m]> (metas g s) else metas g j.
  Proof.
    intros H. split; [|by apply set_metas]. destruct (set_meta_plain s k m g) as [H'|H']; [congruence|]. rewrite H in H'. by injection H'.
  Qed.
  Lemma mutate_set s k f g g' : mutate_edge_meta_data s k f g = Ok g' -> exists m, set_edge_meta_data s k m g = Ok g'.
  Proof.
    unfold mutate_edge_meta_data, set_edge_meta_data, upd. intros (r & Hr & (e & He & [= <-])%rbind_ok)%rbind_ok.
    exists (f (meta e)). rewrite Hr. cbn [rbind]. by rewrite He.
  Qed.
  Lemma mutate_both s k f g g' : mutate_edge_meta_data s k f g = Ok g' ->
    plain g' = plain g /\ forall j, metas g' j = if decide (j = s) then alter f k (metas g s) else metas g j.
  Proof. intros H. split; [|by apply mutate_metas]. destruct (mutate_set _ _ _ _ _ H) as [m Hm]. by destruct (set_both _ _ _ _ _ Hm). Qed.
End meta.

Lemma mixed_up : exists g1 g2 g3 : graph (unit * nat),
  join_m Undirected 0 1 1 2 tt [[]; []] = Ok g1 /\ join_m Undirected 0 1 3 4 tt g1 = Ok g2 /\
  metas g2 0 = [1; 3] /\ metas g2 1 = [2; 4] /\ erase_edge_m Undirected 0 1 g2 = Ok g3 /\ metas g3 0 = [1] /\ metas g3 1 = [4].
Proof. do 3 eexists. repeat split; by vm_compute. Qed.

Lemma not_mixed_up : exists g1 g2 g3 : graph (nat * nat),
  join_m Undirected 0 1 1 2 7 [[]; []] = Ok g1 /\ join_m Undirected 0 1 3 4 8 g1 = Ok g2 /\ told_apart g2 /\
  erase_edge_m Undirected 0 1 g2 = Ok g3 /\ metas g3 0 = [1] /\ metas g3 1 = [2].
Proof.
  do 3 eexists. split; [by vm_compute|]. split; [by vm_compute|]. split; [|split; [by vm_compute|split; by vm_compute]].
  intros w i k j l m n H1 H2 H3 Hik Hjl Hmn.
  destruct i as [|[|i]], k as [|[|k]]; try (cbn in Hik; done); destruct j as [|[|j]], l as [|[|l]]; try (cbn in Hjl; done); cbn in Hik, Hjl; simplify_eq;
    destruct m as [|[|m]], n as [|[|n]]; try (cbn in Hmn; done); cbn in Hmn; simplify_eq.
Qed.
