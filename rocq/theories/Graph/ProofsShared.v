From stdpp Require Import list.
From Verif.Base Require Import Outcome ListLemmas.
From Verif.Graph Require Import Model Spec ModelShared SpecShared.
From Verif.Graph Require Import ProofsBase ProofsPartial ProofsComp ProofsEmb ProofsCount.
Local Open Scope res_scope.

Section occurrences.
  Context {W : Type} `{!EqDecision W}.
  Implicit Types g : graph W.
  Implicit Types r : list (edge W).

  Definition cnt (h : W) r : nat := length (filter (fun e => wt e = h) r).
  (** How many partial edges have weight [h]. *)
  Definition occ g (h : W) : nat := nsum (fun i => cnt h (row g i)) (length g).

  Definition one (h : W) (w : W) : nat := if decide (w = h) then 1 else 0.

  Lemma cnt_app h r r' : cnt h (r ++ r') = cnt h r + cnt h r'.
  Proof. unfold cnt. by rewrite filter_app, app_length. Qed.
  Lemma cnt_cons h e r : cnt h (e :: r) = one h (wt e) + cnt h r.
  Proof. unfold cnt, one. rewrite filter_cons. by destruct (decide _). Qed.
  Lemma cnt_map h (f : edge W -> edge W) r : (forall e, wt (f e) = wt e) -> cnt h (map f r) = cnt h r.
  Proof. intros H. induction r as [|e r IH]; [done|]. cbn [map]. by rewrite !cnt_cons, H, IH. Qed.
  Lemma cnt_perm h r r' : r ≡ₚ r' -> cnt h r = cnt h r'.
  Proof. intros H. unfold cnt. apply Permutation_length. by rewrite H. Qed.
  Lemma cnt_middle h r k e : r !! k = Some e -> cnt h r = one h (wt e) + cnt h (take k r ++ drop (S k) r).
  Proof. intros H. rewrite <- (take_drop_middle r k e H) at 1. rewrite !cnt_app, cnt_cons. lia. Qed.
  Lemma cnt_insert h r k e x : r !! k = Some e -> cnt h (<[k := x]> r) + one h (wt e) = cnt h r + one h (wt x).
  Proof.
    intros H. pose proof (lookup_lt_Some _ _ _ H) as Hk.
    rewrite (cnt_middle h r k e H), (cnt_middle h (<[k := x]> r) k x) by (by apply list_lookup_insert).
    rewrite take_insert, drop_insert_gt by lia. lia.
  Qed.
  Lemma cnt_filter_le h (P : edge W -> Prop) `{!forall x, Decision (P x)} r : cnt h (filter P r) <= cnt h r.
  Proof.
    induction r as [|e r IH]; [done|]. rewrite filter_cons, cnt_cons. destruct (decide (P e)); [rewrite cnt_cons|]; lia.
  Qed.
  Lemma cnt_elem h r e : e ∈ r -> wt e = h -> 0 < cnt h r.
  Proof.
    intros [k Hk]%elem_of_list_lookup Hw. rewrite (cnt_middle h r k e Hk). unfold one. rewrite decide_True by done. lia.
  Qed.

  Lemma nsum_le f f' n : (forall i, i < n -> f i <= f' i) -> nsum f n <= nsum f' n.
  Proof.
    induction n as [|n IH]; intros H; [done|]. cbn [nsum].
    pose proof (IH ltac:(intros; apply H; lia)). pose proof (H n ltac:(lia)). lia.
  Qed.

  Lemma occ_insert g s r h : s < length g -> occ (<[s := r]> g) h + cnt h (row g s) = occ g h + cnt h r.
  Proof.
    intros Hs. unfold occ. rewrite insert_length.
    rewrite (nsum_skip _ (length g) s Hs). rewrite (nsum_skip (fun i => cnt h (row g i)) (length g) s Hs).
    rewrite row_insert_eq by done.
    rewrite (nsum_ext _ (fun i => cnt h (row g (up s i)))); [lia|].
    intros i Hi. by rewrite row_insert_ne by (done || apply up_ne).
  Qed.

  Lemma occ_elem g i k e : row g i !! k = Some e -> 0 < occ g (wt e).
  Proof.
    intros H. pose proof (row_some_lt _ _ _ _ H) as Hi. unfold occ. rewrite (nsum_skip _ (length g) i Hi).
    assert (0 < cnt (wt e) (row g i)); [|lia]. eapply cnt_elem; [|done]. by apply elem_of_list_lookup_2 in H.
  Qed.

  Lemma occ_inserted n g g' h : n <= length g -> is_inserted n g g' -> occ g' h = occ g h.
  Proof.
    intros Hn Hi. pose proof Hi as (Hl & H0 & _). unfold occ. rewrite Hl, (nsum_skip _ _ n) by lia.
    rewrite H0. unfold cnt at 2. simpl. rewrite Nat.add_0_r, Nat.sub_0_r. apply nsum_ext. intros i Hlt.
    rewrite (inserted_row n g g' _ Hn Hi), decide_False by apply up_ne. rewrite cnt_map by done. by rewrite down_up.
  Qed.

  Lemma occ_erased fl n g g' h : n < length g -> is_erased fl n g g' -> occ g' h <= occ g h.
  Proof.
    intros Hn [Hl H]. unfold occ. rewrite Hl. rewrite (nsum_skip (fun i => cnt h (row g i)) (length g) n Hn).
    assert (nsum (fun i => cnt h (row g' i)) (length g - 1) <= nsum (fun i => cnt h (row g (up n i))) (length g - 1)); [|lia].
    apply nsum_le. intros i Hi. rewrite H by lia. rewrite cnt_map by done. apply cnt_filter_le.
  Qed.

  Lemma occ_swapped i j g g' h : i < length g -> j < length g -> is_swapped i j g g' -> occ g' h = occ g h.
  Proof.
    intros Hi Hj [Hl H]. unfold occ. rewrite Hl.
    assert (Hrow : forall a, cnt h (row g' a) = cnt h (row g (transpose i j a))).
    { intros a. rewrite <- (transpose_invol i j a) at 1. by rewrite H, cnt_map. }
    rewrite (nsum_ext _ (fun a => cnt h (row g (transpose i j a)))) by auto.
    destruct (decide (i = j)) as [->|Hij].
    { apply nsum_ext. intros a _. do 2 f_equal. unfold transpose. repeat case_decide; lia. }
    rewrite (nsum_skip _ (length g) i Hi), (nsum_skip (fun i => cnt h (row g i)) (length g) i Hi).
    assert (Hj' : down i j < length g - 1) by (apply down_lt; lia).
    rewrite (nsum_skip _ _ (down i j) Hj'), (nsum_skip (fun a => cnt h (row g (up i a))) _ (down i j) Hj').
    rewrite !up_down by auto.
    rewrite (nsum_ext _ (fun a => cnt h (row g (up i (up (down i j) a))))).
    - assert (Hti : transpose i j i = j) by (unfold transpose; by rewrite decide_True).
      assert (Htj : transpose i j j = i) by (unfold transpose; rewrite decide_False by auto; by rewrite decide_True).
      rewrite Hti, Htj. lia.
    - intros a _. do 2 f_equal. unfold transpose. rewrite decide_False by apply up_ne.
      rewrite decide_False; [done|]. intros Heq. apply (up_ne (down i j) a).
      rewrite <- (down_up i (up (down i j) a)), Heq. done.
  Qed.

  Lemma push_occ g i e g' h : push g i e = Ok g' -> occ g' h = occ g h + one h (wt e).
  Proof.
    unfold push. intros (r & Hr%rget_inv & H)%rbind_inv. injection H as <-.
    pose proof (lookup_lt_Some _ _ _ Hr) as Hi. rewrite <- (row_lookup g i r Hr).
    pose proof (occ_insert g i (row g i ++ [e]) h Hi) as Ht. rewrite cnt_app, cnt_cons in Ht.
    change (cnt h []) with 0 in Ht. lia.
  Qed.

  Lemma insert_at_occ g i k e g' h : insert_at g i k e = Ok g' -> occ g' h = occ g h + one h (wt e).
  Proof.
    unfold insert_at. intros (r & Hr%rget_inv & H)%rbind_inv.
    destruct (Nat.leb_spec k (length r)) as [Hk|]; [|done]. injection H as <-.
    pose proof (lookup_lt_Some _ _ _ Hr) as Hi. rewrite <- (row_lookup g i r Hr) in *.
    pose proof (occ_insert g i (take k (row g i) ++ e :: drop k (row g i)) h Hi) as Ht.
    rewrite cnt_app, cnt_cons in Ht. pose proof (cnt_app h (take k (row g i)) (drop k (row g i))) as Hc.
    rewrite take_drop in Hc. lia.
  Qed.

  Lemma erase_at_occ g i k g' h : erase_at g i k = Ok g' -> occ g' h <= occ g h.
  Proof.
    unfold erase_at. intros (r & Hr%rget_inv & H)%rbind_inv. apply rbind_inv in H as (e & He%rget_inv & H).
    injection H as <-. pose proof (lookup_lt_Some _ _ _ Hr) as Hi. rewrite <- (row_lookup g i r Hr) in *.
    pose proof (occ_insert g i (take k (row g i) ++ drop (S k) (row g i)) h Hi) as Ht.
    rewrite (cnt_middle h (row g i) k e He) in Ht. lia.
  Qed.

  Lemma upd_comp_occ g i k f g' h : upd g i k (fun p => set_comp (f p) p) = Ok g' -> occ g' h = occ g h.
  Proof.
    unfold upd. intros (r & Hr%rget_inv & H)%rbind_inv. apply rbind_inv in H as (e & He%rget_inv & H).
    injection H as <-. pose proof (lookup_lt_Some _ _ _ Hr) as Hi. rewrite <- (row_lookup g i r Hr) in *.
    pose proof (occ_insert g i (<[k := set_comp (f e) e]> (row g i)) h Hi) as Ht.
    pose proof (cnt_insert h (row g i) k e (set_comp (f e) e) He) as Hc. cbn [set_comp wt] in Hc. lia.
  Qed.

  Lemma modify_comp_occ f s ks g g' h : modify_comp f s ks g = Ok g' -> occ g' h = occ g h.
  Proof.
    revert g. induction ks as [|k ks IH]; intros g; cbn [modify_comp]; [by intros [= <-]|].
    intros (e & _ & H)%rbind_inv. apply rbind_inv in H as (g1 & H1 & H).
    apply (upd_comp_occ _ _ _ (fun p => f (comp p)) _ h) in H1. apply IH in H. congruence.
  Qed.

  Lemma modify_from_occ f s k g g' h : modify_from f s k g = Ok g' -> occ g' h = occ g h.
  Proof. unfold modify_from. intros (r & _ & H)%rbind_inv. by eapply modify_comp_occ. Qed.

  (** Two halves with a weight that occurs at most twice have it to themselves. *)
  Lemma occ_only g s k t q e e' i m x :
    occ g (wt e) <= 2 -> (t, q) <> (s, k) ->
    row g s !! k = Some e -> row g t !! q = Some e' -> wt e' = wt e ->
    row g i !! m = Some x -> wt x = wt e -> (i, m) = (s, k) \/ (i, m) = (t, q).
  Proof.
    intros Ho Hne Hk Hq Hw Hx Hwx.
    destruct (decide ((i, m) = (s, k))) as [|Hn1]; [by left|]. destruct (decide ((i, m) = (t, q))) as [|Hn2]; [by right|].
    exfalso.
    pose proof (row_some_lt _ _ _ _ Hk) as Hs. pose proof (row_some_lt _ _ _ _ Hq) as Ht. pose proof (row_some_lt _ _ _ _ Hx) as Hi.
    (* count the three rows *)
    assert (H3 : forall a, cnt (wt e) (row g a) >= (if decide (a = s) then 1 else 0) + (if decide (a = t) then 1 else 0) + (if decide (a = i) then 1 else 0)).
    { intros a.
      assert (Hg : forall (l : list nat) r, NoDup l -> (forall p, p ∈ l -> exists y, r !! p = Some y /\ wt y = wt e) -> length l <= cnt (wt e) r).
      { clear. intros l r Hnd Hl.
        assert (Hp : forall k r, length (places (fun y => bool_decide (wt y = wt e)) k r) = cnt (wt e) r).
        { intros k r0. revert k. induction r0 as [|y r0 IH]; intros k; [done|]. cbn [places]. rewrite cnt_cons. unfold one.
          case_bool_decide; [rewrite decide_True by done|rewrite decide_False by done]; simpl; by rewrite IH. }
        rewrite <- (Hp 0). apply NoDup_incl_length; [by apply NoDup_ListNoDup|].
        intros p Hin%elem_of_list_In. apply elem_of_list_In, places_elem. split; [lia|]. rewrite Nat.sub_0_r.
        destruct (Hl p Hin) as (y & ? & ?). exists y. split; [done|]. by apply bool_decide_eq_true. }
      set (l := (if decide (a = s) then [k] else []) ++ (if decide (a = t) then [q] else []) ++ (if decide (a = i) then [m] else [])).
      assert (Hll : length l = (if decide (a = s) then 1 else 0) + (if decide (a = t) then 1 else 0) + (if decide (a = i) then 1 else 0)).
      { unfold l. rewrite !app_length. repeat case_decide; done. }
      rewrite <- Hll. apply Hg.
      - unfold l. repeat case_decide; subst; cbn [app]; repeat constructor;
          rewrite ?elem_of_cons, ?elem_of_nil; intros Hc; repeat destruct Hc as [Hc|Hc]; subst; try done; try congruence.
      - intros p. unfold l. repeat case_decide; subst; cbn [app]; rewrite ?elem_of_cons, ?elem_of_nil;
          intros Hc; repeat destruct Hc as [Hc|Hc]; subst; try done; eauto. }
    assert (Hsum : forall n a, a < n -> nsum (fun b => if decide (b = a) then 1 else 0) n = 1).
    { intros n a Ha. rewrite (nsum_single _ n a Ha); [by rewrite decide_True|]. intros b _ Hb. by rewrite decide_False. }
    assert (Hge : 3 <= occ g (wt e)).
    { unfold occ. transitivity (nsum (fun a => (if decide (a = s) then 1 else 0) + (if decide (a = t) then 1 else 0) + (if decide (a = i) then 1 else 0)) (length g)).
      - rewrite !nsum_add, !Hsum by done. lia.
      - apply nsum_le. intros a _. apply H3. }
    lia.
  Qed.
End occurrences.

Ltac obinds h :=
  repeat match goal with
  | H : rbind _ _ = Ok _ |- _ => apply rbind_inv in H as (? & ? & H)
  | H : (if ?b then _ else _) = Ok _ |- _ => destruct b eqn:?; try done
  | H : Ok _ = Ok _ |- _ => injection H as ?
  | H : push _ _ _ = Ok _ |- _ => apply (push_occ _ _ _ _ h) in H
  | H : insert_at _ _ _ _ = Ok _ |- _ => apply (insert_at_occ _ _ _ _ _ h) in H
  | H : erase_at _ _ _ = Ok _ |- _ => apply (erase_at_occ _ _ _ _ h) in H
  | H : modify_comp _ _ _ _ = Ok _ |- _ => apply (modify_comp_occ _ _ _ _ _ h) in H
  | H : modify_from _ _ _ _ = Ok _ |- _ => apply (modify_from_occ _ _ _ _ _ h) in H
  | H : match ?m with Some _ => _ | None => _ end = Ok _ |- _ => destruct m eqn:?; try done
  end.

Section shared.
  Context {V : Type}.
  Implicit Types g : sgraph V.
  Implicit Types es : graph nat.

  Lemma join_occ fl n1 n2 (w : nat) es es' h :
    fl <> Directed -> join fl n1 n2 w es = Ok es' -> occ es' h = occ es h + 2 * one h w.
  Proof.
    intros Hfl H. unfold join in H. apply rbind_inv in H as (u & _ & H). apply rbind_inv in H as (v & _ & H).
    apply rbind_inv in H as (g1 & Ha & H).
    assert (H1 : occ g1 h = occ es h + one h w /\ exists r c, g1 !! n1 = Some (r ++ [Edge n2 c w])).
    { unfold add_to_partition in Ha.
      assert (Hp : forall c, push es n1 (Edge n2 c w) = Ok g1 -> occ g1 h = occ es h + one h w /\ exists r c, g1 !! n1 = Some (r ++ [Edge n2 c w])).
      { intros c Hp. split; [by apply (push_occ _ _ _ _ h) in Hp|].
        unfold push in Hp. apply rbind_inv in Hp as (r & Hr%rget_inv & Hp). injection Hp as <-.
        exists r, c. apply list_lookup_insert. by eapply lookup_lt_Some. }
      destruct fl; [done|by eapply Hp|]. apply rbind_inv in Ha as (r2 & _ & Ha). by eapply Hp. }
    destruct H1 as (H1 & r & c & Hr).
    assert (H2 : reciprocal_join fl n1 n2 g1 = Ok es') by (by destruct fl).
    unfold reciprocal_join in H2. apply rbind_inv in H2 as (r1 & Hr1%rget_inv & H2).
    rewrite Hr in Hr1. injection Hr1 as <-. apply rbind_inv in H2 as (e & He%rget_inv & H2).
    rewrite app_length in He. cbn [length] in He. replace (length r + 1 - 1) with (length r) in He by lia.
    rewrite lookup_app_r, Nat.sub_diag in He by done. cbn in He. injection He as <-. cbn [wt] in H2.
    destruct fl; [done|..]; apply (push_occ _ _ _ _ h) in H2; cbn [wt] in H2; lia.
  Qed.

  Lemma insert_at_get (g : graph nat) i k e (g' : graph nat) : insert_at g i k e = Ok g' -> row g' i !! k = Some e.
  Proof.
    unfold insert_at. intros (r & Hr%rget_inv & H)%rbind_inv.
    destruct (Nat.leb_spec k (length r)) as [Hk|]; [|done]. injection H as <-.
    rewrite row_insert_eq by (by eapply lookup_lt_Some).
    rewrite lookup_app_r by (rewrite take_length; lia). rewrite take_length.
    by replace (k - k `min` length r) with 0 by lia.
  Qed.

  (** Moving complementary indices does not change weights. *)
  Lemma modify_comp_wt f s ks (g g' : graph nat) i k e :
    modify_comp f s ks g = Ok g' -> row g i !! k = Some e -> exists e', row g' i !! k = Some e' /\ wt e' = wt e.
  Proof.
    revert g e. induction ks as [|k0 ks IH]; intros g e; cbn [modify_comp]; [intros [= <-]; eauto|].
    intros (e0 & _ & H)%rbind_inv Hk. apply rbind_inv in H as (g1 & H1 & H).
    assert (He1 : exists e1, row g1 i !! k = Some e1 /\ wt e1 = wt e).
    { unfold upd in H1. apply rbind_inv in H1 as (r & Hr%rget_inv & H1). apply rbind_inv in H1 as (x & Hx%rget_inv & H1).
      injection H1 as <-. pose proof (lookup_lt_Some _ _ _ Hr) as Hlt.
      rewrite row_insert by done. destruct (decide (i = tgt e0)) as [->|]; [|eauto].
      rewrite (row_lookup _ _ _ Hr) in Hk.
      destruct (decide (k = (if tgt e0 =? s then if f (comp e0) <=? k0 then comp e0 else f (comp e0) else comp e0))) as [Heq|Hne].
      - rewrite Heq. rewrite list_lookup_insert by (by eapply lookup_lt_Some). eexists. split; [done|].
        cbn [set_comp wt]. rewrite Heq in Hk. congruence.
      - rewrite list_lookup_insert_ne by done. eauto. }
    destruct He1 as (e1 & H2 & H3). destruct (IH g1 e1 H H2) as (e' & ? & ?). exists e'. split; [done|]. congruence.
  Qed.

  Lemma insert_join_loop_occ n k1 pos2 (w : nat) es es' h :
    insert_join_loop n k1 pos2 w es = Ok es' -> occ es' h = occ es h + 2 * one h w.
  Proof.
    unfold insert_join_loop, insert_to_partition. intros (r & _ & H)%rbind_inv. destruct (_ <? pos2); [done|].
    apply rbind_inv in H as (g1 & H1 & H). apply rbind_inv in H1 as (g0 & H0 & H1).
    pose proof (insert_at_get _ _ _ _ _ H0) as Hg0. unfold modify_from in H1. apply rbind_inv in H1 as (r0 & _ & H1).
    destruct (modify_comp_wt _ _ _ _ _ _ _ _ H1 Hg0) as (e' & He' & Hw).
    unfold insert_reciprocal_loop in H. apply rbind_inv in H as (e & He & H).
    rewrite (get_row _ _ _ _ He') in He. injection He as <-. cbn [wt] in Hw. rewrite Hw in H.
    obinds h; cbn [wt] in *; lia.
  Qed.

  Lemma insert_join_occ i1 k1 i2 k2 (w : nat) es es' h :
    insert_join i1 k1 i2 k2 w es = Ok es' -> occ es' h = occ es h + 2 * one h w.
  Proof.
    unfold insert_join, insert_to_partition. destruct (i1 =? i2); [apply insert_join_loop_occ|].
    intros (g1 & H1 & H)%rbind_inv. apply rbind_inv in H1 as (g0 & H0 & H1).
    pose proof (insert_at_get _ _ _ _ _ H0) as Hg0. unfold modify_from in H1. apply rbind_inv in H1 as (r0 & _ & H1).
    destruct (modify_comp_wt _ _ _ _ _ _ _ _ H1 Hg0) as (e' & He' & Hw).
    unfold insert_reciprocal in H. apply rbind_inv in H as (e & He & H).
    rewrite (get_row _ _ _ _ He') in He. injection He as <-. cbn [wt] in Hw. rewrite Hw in H.
    obinds h; cbn [wt] in *; lia.
  Qed.

  Lemma erase_edge_occ fl s k es es' h : erase_edge fl s k es = Ok es' -> occ es' h <= occ es h.
  Proof. unfold erase_edge. intros H. destruct fl; obinds h; subst; lia. Qed.

  Lemma plain_occ fl o es es' h :
    graph_ok fl es -> is_plain o -> allowed fl es o -> step fl o es = Ok es' -> occ es' h <= occ es h.
  Proof.
    intros Hok Hp Ha Hs. pose proof (graph_ok_in_range fl es Hok) as Hr.
    destruct o; cbn [step is_plain allowed] in *; try contradiction.
    - injection Hs as <-. rewrite (occ_inserted (length es) es); [done|done|by apply add_node_inserted].
    - injection Hs as <-. rewrite (occ_inserted (Nat.min pos (length es)) es); [done|lia|by apply insert_node_inserted].
    - assert (Hn : n < length es).
      { unfold erase_node, check_node, order in Hs. destruct (Nat.ltb_spec n (length es)); done. }
      destruct (erase_node_is fl n es Hok Hn) as (g1 & H1 & H2). rewrite H1 in Hs. injection Hs as <-.
      by eapply occ_erased.
    - by eapply erase_edge_occ.
    - pose proof Hs as Hs0. unfold swap_nodes in Hs.
      apply rbind_inv in Hs as (u & Hu & Hs). apply rbind_inv in Hs as (v & Hv & _).
      assert (Hi : i < length es) by (unfold check_node, order in Hu; destruct (Nat.ltb_spec i (length es)); done).
      assert (Hj : j < length es) by (unfold check_node, order in Hv; destruct (Nat.ltb_spec j (length es)); done).
      destruct (swap_nodes_is fl i j es Hok Hi Hj) as (g1 & H1 & H2). rewrite H1 in Hs0. injection Hs0 as <-.
      by rewrite (occ_swapped i j es).
    - destruct (swap_edges_row n i j es) as [(r & Hn & H1 & Hp')|H1]; [|congruence].
      rewrite H1 in Hs. injection Hs as <-. pose proof (occ_insert es n r h Hn) as Ho. rewrite (cnt_perm h _ _ Hp') in Ho. lia.
    - destruct Ha as (_ & Hi1 & Hi2 & Hle & Hsort).
      destruct (sort_edges_row i1 k1 i2 k2 sorter es Hi1 Hi2 Hle Hsort) as [H1|(r & Hn & H1 & Hp')];
        rewrite H1 in Hs; injection Hs as <-; [done|].
      pose proof (occ_insert es i1 r h Hn) as Ho. rewrite (cnt_perm h _ _ Hp') in Ho. lia.
  Qed.

  (** *** The invariant *)

  Definition shared_ok (fl : flavour) g : Prop :=
    graph_ok fl (sedges g)
    /\ (forall h, occ (sedges g) h <= 2)
    /\ (forall h, length (heap g) <= h -> occ (sedges g) h = 0).

  Lemma shared_join fl g es' v :
    shared_ok fl g -> graph_ok fl es' ->
    (forall h, occ es' h = occ (sedges g) h + 2 * one h (length (heap g))) ->
    shared_ok fl (SGraph es' (heap g ++ [v])).
  Proof.
    intros (Hok & H2 & H0) Hok' Ho. split; [done|]. cbn [sedges heap]. split.
    - intros h. rewrite Ho. unfold one. destruct (decide (length (heap g) = h)) as [<-|]; [rewrite H0 by done; lia|].
      rewrite Nat.mul_0_r, Nat.add_0_r. apply H2.
    - intros h. rewrite app_length. cbn [length]. intros Hh. rewrite Ho, H0 by lia. unfold one. rewrite decide_False by lia. lia.
  Qed.

  Lemma sstep_ok fl o g g' :
    fl <> Directed -> shared_ok fl g -> sallowed fl g o -> sstep fl o g = Ok g' -> shared_ok fl g'.
  Proof.
    intros Hfl Hsok Ha Hs. pose proof Hsok as (Hok & H2 & H0).
    destruct o; cbn [sstep sallowed] in *.
    - apply rbind_inv in Hs as (es & Hs & H). injection H as <-. destruct Ha as [Hp Ha].
      split; [by eapply step_ok|]. cbn [sedges heap]. split.
      + intros h. rewrite (plain_occ fl o (sedges g) es h); done.
      + intros h Hh. pose proof (plain_occ fl o (sedges g) es h Hok Hp Ha Hs). rewrite H0 in H by done. lia.
    - apply rbind_inv in Hs as (es & Hs & H). injection H as <-. apply shared_join; [done| |].
      + by eapply (step_ok fl (Join n1 n2 (length (heap g))) (sedges g)).
      + intros h. by eapply join_occ.
    - apply rbind_inv in Hs as (es & Hs & H). injection H as <-. apply shared_join; [done| |].
      + by eapply (step_ok fl (InsertJoin i1 k1 i2 k2 (length (heap g))) (sedges g)).
      + intros h. by eapply insert_join_occ.
    - apply rbind_inv in Hs as (es & Hs & H). injection H as <-. apply shared_join; [done| |].
      + by eapply (step_ok fl (InsertLoop i k pos2 (length (heap g))) (sedges g)).
      + intros h. by eapply insert_join_loop_occ.
    - apply rbind_inv in Hs as (e & _ & Hs). apply rbind_inv in Hs as (hp & Hh & Hs). injection Hs as <-.
      split; [done|]. cbn [sedges heap]. split; [done|].
      assert (Hl : length hp = length (heap g)).
      { unfold rset in Hh. destruct (heap g !! wt e); [|done]. injection Hh as <-. apply insert_length. }
      by rewrite Hl.
    - apply rbind_inv in Hs as (e & _ & Hs). apply rbind_inv in Hs as (v & _ & Hs).
      apply rbind_inv in Hs as (hp & Hh & Hs). injection Hs as <-.
      split; [done|]. cbn [sedges heap]. split; [done|].
      assert (Hl : length hp = length (heap g)).
      { unfold rset in Hh. destruct (heap g !! wt e); [|done]. injection Hh as <-. apply insert_length. }
      by rewrite Hl.
  Qed.

  Lemma empty_shared_ok fl : fl <> Directed -> shared_ok fl (SGraph [] []).
  Proof.
    intros Hfl. split; [|split; intros h; cbn; lia]. cbn [sedges]. destruct fl; [done|..].
    - split; [intros i e He; by apply elem_of_nil in He|]. split; [done|]. intros i w. by exists 0.
    - intros i k e He. done.
  Qed.

  Lemma sreachable_ok fl g0 g : fl <> Directed -> shared_ok fl g0 -> sreachable fl g0 g -> shared_ok fl g.
  Proof. intros Hfl H0. induction 1 as [|g o g' _ IH Ha Hs]; [done|by eapply sstep_ok]. Qed.

  Lemma sweight_row g i k e : row (sedges g) i !! k = Some e -> sweight g i k = rget (heap g) (wt e).
  Proof. intros H. unfold sweight. by rewrite (get_row _ _ _ _ H). Qed.

  (** The weight of every partial edge of a reachable graph can be read. *)
  Lemma sweight_readable fl g i k e :
    shared_ok fl g -> row (sedges g) i !! k = Some e -> wt e < length (heap g).
  Proof.
    intros (_ & _ & H0) Hk. destruct (decide (wt e < length (heap g))); [done|].
    pose proof (occ_elem _ _ _ _ Hk). rewrite H0 in H by lia. lia.
  Qed.

  Lemma partner_of fl (es : graph nat) s k e :
    fl <> Directed -> graph_ok fl es -> row es s !! k = Some e ->
    exists q e', row es (tgt e) !! q = Some e' /\ tgt e' = s /\ wt e' = wt e /\ (tgt e, q) <> (s, k).
  Proof.
    intros Hfl Hok Hk. destruct fl; [done|..].
    - destruct (find_partner_undirected es s k e Hok Hk) as (q & e' & _ & H2 & H3 & H4 & H5). eauto 10.
    - destruct (Hok s k e Hk) as (e' & H1 & H2 & _ & H4 & H5). eauto 10.
  Qed.

  (** Writing the weight through one half. *)
  Lemma shared_write fl g s k v :
    fl <> Directed -> shared_ok fl g -> is_Some (row (sedges g) s !! k) ->
    exists e t q, row (sedges g) s !! k = Some e /\ two_halves g s k t q
      /\ rset (heap g) (wt e) v = Ok (<[wt e := v]> (heap g))
      /\ let g' := SGraph (sedges g) (<[wt e := v]> (heap g)) in
         sweight g' s k = Ok v /\ sweight g' t q = Ok v
         /\ forall i m, (i, m) <> (s, k) -> (i, m) <> (t, q) -> sweight g' i m = sweight g i m.
  Proof.
    intros Hfl Hs [e Hk]. pose proof Hs as (Hok & H2 & H0).
    destruct (partner_of fl _ s k e Hfl Hok Hk) as (q & e' & Hq & Ht' & Hw & Hne).
    pose proof (sweight_readable fl g s k e Hs Hk) as Hlt.
    exists e, (tgt e), q. split; [done|]. split.
    { split; [done|]. exists e, e'. split; [done|]. split; [done|]. split; [done|]. split; done. }
    split. { unfold rset. destruct (lookup_in_range _ _ Hlt) as [x ->]. done. }
    cbn zeta. set (g' := SGraph _ _).
    assert (Hself : rget (<[wt e := v]> (heap g)) (wt e) = Ok v).
    { unfold rget. by rewrite list_lookup_insert. }
    split; [|split].
    - by rewrite (sweight_row g' s k e) by done.
    - rewrite (sweight_row g' (tgt e) q e') by done. by rewrite Hw.
    - intros i m Hn1 Hn2. unfold sweight. cbn [g' sedges].
      destruct (get (sedges g) i m) as [x| | |] eqn:Hg; try done. cbn [rbind].
      assert (Hx : row (sedges g) i !! m = Some x).
      { unfold get in Hg. apply rbind_inv in Hg as (r & Hr%rget_inv & Hg%rget_inv). by rewrite (row_lookup _ _ _ Hr). }
      unfold rget. cbn [g' heap]. rewrite list_lookup_insert_ne; [done|]. intros Heq.
      destruct (occ_only (sedges g) s k (tgt e) q e e' i m x (H2 _) Hne Hk Hq Hw Hx (eq_sym Heq)); done.
  Qed.
End shared.
