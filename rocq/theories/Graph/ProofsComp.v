(** Embedded graphs: what the passes over the complementary indices do when half an edge is
    taken out of, or put into, the list of a node. *)
From stdpp Require Import list sorting sets.
From Verif.Base Require Import Outcome ListLemmas.
From Verif.Graph Require Import Model Spec ProofsBase.
Local Open Scope res_scope.

Section comp.
  Context {W : Type} `{!EqDecision W}.
  Implicit Types g : graph W.
  Implicit Types r : list (edge W).

  (** *** A pass over some positions of a node *)

  (** The complementary indices at the positions [P] are updated. *)
  Definition mark (f : nat -> nat) (P : list (nat * nat)) g : graph W :=
    imap (fun i r => imap (fun m e => if decide ((i, m) ∈ P) then set_comp (f (comp e)) e else e) r) g.

  Lemma mark_length f P g : length (mark f P g) = length g.
  Proof. apply imap_length. Qed.

  Lemma mark_row f P g i m :
    row (mark f P g) i !! m =
      (fun e => if decide ((i, m) ∈ P) then set_comp (f (comp e)) e else e) <$> row g i !! m.
  Proof.
    unfold row, mark. rewrite list_lookup_imap. destruct (g !! i) as [r|]; simpl; [|done].
    by rewrite list_lookup_imap.
  Qed.

  Lemma mark_row_length f P g i : length (row (mark f P g) i) = length (row g i).
  Proof.
    unfold row, mark. rewrite list_lookup_imap. destruct (g !! i) as [r|]; simpl; [|done].
    apply imap_length.
  Qed.

  Lemma graph_eq_lookup g g' :
    length g = length g' -> (forall i m, row g i !! m = row g' i !! m) -> g = g'.
  Proof. intros Hl H. apply graph_eq; [done|]. intros i _. apply list_eq. auto. Qed.

  Lemma mark_nil f g : mark f [] g = g.
  Proof.
    apply graph_eq_lookup; [apply mark_length|]. intros i m. rewrite mark_row.
    by destruct (row g i !! m).
  Qed.

  Lemma mark_upd f P g i m e :
    row g i !! m = Some e -> (i, m) ∉ P ->
    upd (mark f P g) i m (fun p => set_comp (f (comp p)) p) = Ok (mark f (P ++ [(i, m)]) g).
  Proof.
    intros He Hn.
    assert (Hm : row (mark f P g) i !! m = Some e).
    { rewrite mark_row, He. simpl. by rewrite decide_False. }
    rewrite (upd_row _ _ _ _ _ Hm). f_equal.
    pose proof (row_some_lt _ _ _ _ Hm) as Hi. pose proof (lookup_lt_Some _ _ _ Hm) as Hlt.
    apply graph_eq_lookup; [by rewrite insert_length, !mark_length|].
    intros a b. rewrite row_insert by done. rewrite mark_row.
    destruct (decide (a = i)) as [->|Hai].
    - destruct (decide (b = m)) as [->|Hbm].
      + rewrite list_lookup_insert by done. rewrite He. simpl.
        by rewrite decide_True by (apply elem_of_app; right; by apply elem_of_list_singleton).
      + rewrite list_lookup_insert_ne by done. rewrite mark_row.
        destruct (row g i !! b); simpl; [|done]. f_equal.
        destruct (decide ((i, b) ∈ P)).
        * by rewrite decide_True by (apply elem_of_app; by left).
        * rewrite decide_False; [done|]. rewrite elem_of_app, elem_of_list_singleton. intros [?|?]; congruence.
    - rewrite mark_row. destruct (row g a !! b); simpl; [|done]. f_equal.
      destruct (decide ((a, b) ∈ P)).
      + by rewrite decide_True by (apply elem_of_app; by left).
      + rewrite decide_False; [done|]. rewrite elem_of_app, elem_of_list_singleton. intros [?|?]; congruence.
  Qed.

  (** [pi k] is where the other half of the edge at position [k] of node [s] is; [P] are the
      positions updated before. *)
  Definition located (f : nat -> nat) (s : nat) g (P : list (nat * nat)) (k : nat) (x : nat * nat) : Prop :=
    exists e e', row g s !! k = Some e /\ fst x = tgt e /\ row g (tgt e) !! snd x = Some e' /\ x ∉ P /\
      let c := if decide ((s, k) ∈ P) then f (comp e) else comp e in
      (if tgt e =? s then (if f c <=? k then c else f c) else c) = snd x.

  Lemma modify_comp_marks f s g (pi : nat -> nat * nat) ks P :
    (forall pre k post, ks = pre ++ k :: post -> located f s g (P ++ map pi pre) k (pi k)) ->
    modify_comp f s ks (mark f P g) = Ok (mark f (P ++ map pi ks) g).
  Proof.
    revert P. induction ks as [|k ks IH]; intros P H; cbn [modify_comp map].
    - by rewrite app_nil_r.
    - destruct (H [] k ks eq_refl) as (e & e' & Hk & Hfst & Hx & Hn & Hloc). simpl in Hn, Hloc.
      rewrite app_nil_r in Hn, Hloc. destruct (pi k) as [t q] eqn:Epi. cbn [fst snd] in *. subst t.
      assert (Hget : get (mark f P g) s k = Ok (if decide ((s, k) ∈ P) then set_comp (f (comp e)) e else e)).
      { apply get_row. by rewrite mark_row, Hk. }
      rewrite Hget. cbn [rbind].
      assert (Ht : tgt (if decide ((s, k) ∈ P) then set_comp (f (comp e)) e else e) = tgt e) by (by destruct (decide _)).
      assert (Hc : comp (if decide ((s, k) ∈ P) then set_comp (f (comp e)) e else e)
                   = if decide ((s, k) ∈ P) then f (comp e) else comp e) by (by destruct (decide _)).
      rewrite Ht, Hc, Hloc. rewrite (mark_upd f P g (tgt e) q e') by done. cbn [rbind].
      rewrite IH; [by rewrite <- app_assoc|]. intros pre k' post ->.
      specialize (H (k :: pre) k' post eq_refl). cbn [map] in H. rewrite Epi in H.
      by rewrite <- app_assoc.
  Qed.

  Lemma modify_comp_app f s ks ks' g :
    modify_comp f s (ks ++ ks') g = let? g := modify_comp f s ks g in modify_comp f s ks' g.
  Proof.
    revert g. induction ks as [|k ks IH]; intros g; [done|]. cbn [app modify_comp].
    destruct (get g s k); cbn [rbind]; try done. destruct (upd _ _ _ _); cbn [rbind]; try done.
  Qed.

  (** Increasing lists of positions. *)
  Fixpoint increasing (l : list nat) : Prop :=
    match l with
    | [] => True
    | x :: l => (forall y, y ∈ l -> x < y) /\ increasing l
    end.

  Lemma increasing_seq a n : increasing (seq a n).
  Proof.
    revert a. induction n as [|n IH]; intros a; simpl; [done|]. split; [|apply IH].
    intros y Hy%elem_of_seq. lia.
  Qed.

  Lemma increasing_app l l' :
    increasing l -> increasing l' -> (forall x y, x ∈ l -> y ∈ l' -> x < y) -> increasing (l ++ l').
  Proof.
    induction l as [|x l IH]; intros Hl Hl' Hxy; simpl; [done|]. destruct Hl as [Hx Hl]. split.
    - intros y [Hy|Hy]%elem_of_app; [auto|]. apply Hxy; [left|done].
    - apply IH; [done|done|]. intros a b Ha Hb. apply Hxy; [by right|done].
  Qed.

  Lemma increasing_split pre k post :
    increasing (pre ++ k :: post) ->
    forall x, x ∈ pre <-> x ∈ pre ++ k :: post /\ x < k.
  Proof.
    induction pre as [|y pre IH]; simpl; intros Hi x.
    - split; [by intros ?%elem_of_nil|]. intros [[->|Hx]%elem_of_cons Hlt]; [lia|].
      destruct Hi as [Hi _]. apply Hi in Hx. lia.
    - destruct Hi as [Hy Hi]. specialize (IH Hi x). rewrite !elem_of_cons. split.
      + intros [->|Hx]; [|naive_solver]. split; [by left|]. apply Hy. apply elem_of_app. right. left.
      + intros [[->|Hx] Hlt]; [by left|]. right. by apply IH.
  Qed.

  (** *** Taking positions [p], ..., [p + num - 1] of node [s] out *)

  Definition lower (num s p : nat) (e : edge W) : edge W :=
    if decide (tgt e = s /\ p + num <= comp e) then set_comp (comp e - num) e else e.

  Definition cut (num p : nat) r : list (edge W) := take p r ++ drop (p + num) r.

  Definition del (num s p : nat) g : graph W :=
    <[s := map (lower num s p) (cut num p (row g s))]> (map (map (lower num s p)) g).

  (** The old position of position [m] of node [i]. *)
  Definition before_del (num s p i m : nat) : nat := if decide (i = s /\ p <= m) then m + num else m.

  Lemma cut_lookup num p r m :
    p <= length r -> cut num p r !! m = r !! (if decide (p <= m) then m + num else m).
  Proof.
    intros Hp. unfold cut. destruct (decide (p <= m)).
    - rewrite lookup_app_r by (rewrite take_length; lia). rewrite lookup_drop, take_length. f_equal. lia.
    - rewrite lookup_app_l by (rewrite take_length; lia). by rewrite lookup_take by lia.
  Qed.

  Lemma del_length num s p g : length (del num s p g) = length g.
  Proof. unfold del. by rewrite insert_length, map_length. Qed.

  Lemma row_map (h : list (edge W) -> list (edge W)) g i : h [] = [] -> row (map h g) i = h (row g i).
  Proof. intros Hn. unfold row. rewrite list_lookup_fmap. by destruct (g !! i). Qed.

  Lemma del_rows num s p g i :
    s < length g ->
    row (del num s p g) i =
      map (lower num s p) (if decide (i = s) then cut num p (row g s) else row g i).
  Proof.
    intros Hs. unfold del. rewrite row_insert by (by rewrite map_length).
    destruct (decide (i = s)) as [->|]; [done|]. by rewrite row_map.
  Qed.

  Lemma del_row num s p g i m :
    s < length g -> p <= length (row g s) ->
    row (del num s p g) i !! m = lower num s p <$> row g i !! before_del num s p i m.
  Proof.
    intros Hs Hp. rewrite del_rows by done. rewrite list_lookup_fmap. unfold before_del.
    destruct (decide (i = s)) as [->|].
    - rewrite cut_lookup by done. destruct (decide (p <= m)).
      + by rewrite (decide_True (P := s = s /\ p <= m)).
      + by rewrite (decide_False (P := s = s /\ p <= m)) by tauto.
    - by rewrite (decide_False (P := i = s /\ p <= m)) by tauto.
  Qed.

  (** The edges that remain of node [s] from [p] on have their other halves where they should. *)
  Definition pairs_above (num s p : nat) g : Prop :=
    (forall k e, p + num <= k -> row g s !! k = Some e ->
       exists e', row g (tgt e) !! comp e = Some e' /\ tgt e' = s /\ comp e' = k
         /\ (tgt e = s -> comp e <> k /\ ~ (p <= comp e < p + num)))
    /\ (forall i m e', ~ (i = s /\ p <= m < p + num) ->
       row g i !! m = Some e' -> tgt e' = s -> p + num <= comp e' ->
       exists e, row g s !! comp e' = Some e /\ tgt e = i /\ comp e = m).

  Lemma modify_del num s p g :
    0 < num -> p + num <= length (row g s) -> pairs_above num s p g ->
    modify_from (dec num) s p (<[s := cut num p (row g s)]> g) = Ok (del num s p g).
  Proof.
    intros Hnum Hp [HA HB].
    assert (Hs : s < length g).
    { destruct (decide (s < length g)); [done|]. rewrite row_ge in Hp by lia. simpl in Hp. lia. }
    set (r := row g s) in *. set (g1 := <[s := cut num p r]> g).
    assert (Hl1 : length g1 = length g) by apply insert_length.
    assert (Hrow1 : forall i m, row g1 i !! m = row g i !! before_del num s p i m).
    { intros i m. unfold g1, before_del. rewrite row_insert by done.
      destruct (decide (i = s)) as [->|].
      - rewrite cut_lookup by lia. unfold r. destruct (decide (p <= m)).
        + by rewrite (decide_True (P := s = s /\ p <= m)).
        + by rewrite (decide_False (P := s = s /\ p <= m)) by tauto.
      - by rewrite (decide_False (P := i = s /\ p <= m)) by tauto. }
    unfold modify_from. rewrite rget_row by lia. cbn [rbind].
    assert (Hlen : length (row g1 s) = length r - num).
    { unfold g1. rewrite row_insert_eq by done. unfold cut. rewrite app_length, take_length, drop_length. lia. }
    rewrite Hlen. set (ks := seq p (length r - num - p)).
    assert (Hks : forall k, k ∈ ks <-> p <= k /\ k + num < length r).
    { intros k. unfold ks. rewrite elem_of_seq. lia. }
    set (pi := fun k => match r !! (k + num) with
      | Some e => (tgt e, if decide (tgt e = s) then (if decide (comp e < p) then comp e else comp e - num) else comp e)
      | None => (0, 0) end).
    (* the new place of the other half *)
    assert (Hpi : forall k, k ∈ ks -> exists e e', r !! (k + num) = Some e /\ row g1 s !! k = Some e
       /\ fst (pi k) = tgt e /\ row g1 (tgt e) !! snd (pi k) = Some e' /\ row g (tgt e) !! comp e = Some e'
       /\ tgt e' = s /\ comp e' = k + num /\ (tgt e = s -> comp e <> k + num /\ ~ (p <= comp e < p + num))
       /\ pi k = (tgt e, if decide (tgt e = s) then (if decide (comp e < p) then comp e else comp e - num) else comp e)).
    { intros k Hk. apply Hks in Hk as [Hk1 Hk2]. destruct (lookup_in_range r (k + num)) as [e He]; [done|].
      destruct (HA (k + num) e) as (e' & He' & Ht' & Hc' & Hst); [lia|done|].
      exists e, e'. unfold pi. rewrite He. cbn [fst snd]. split; [done|]. split.
      { rewrite Hrow1. unfold before_del. by rewrite decide_True by done. }
      split; [done|]. split; [|done]. rewrite Hrow1. unfold before_del.
      destruct (decide (tgt e = s)) as [Hts|Hts].
      - specialize (Hst Hts). destruct (decide (comp e < p)).
        + rewrite decide_False by lia. done.
        + rewrite decide_True by lia. replace (comp e - num + num) with (comp e) by lia. done.
      - rewrite decide_False by tauto. done. }
    assert (Hinj : forall k k', k ∈ ks -> k' ∈ ks -> pi k = pi k' -> k = k').
    { intros k k' Hk Hk' Heq.
      destruct (Hpi k Hk) as (e & e' & _ & _ & _ & _ & He1 & _ & Hc1 & Hs1 & Hp1).
      destruct (Hpi k' Hk') as (e2 & e2' & _ & _ & _ & _ & He2 & _ & Hc2 & Hs2 & Hp2).
      rewrite Hp1, Hp2 in Heq. injection Heq as Ht Hq.
      assert (Hcomp : comp e = comp e2).
      { rewrite <- Ht in Hq, Hs2. destruct (decide (tgt e = s)) as [Hts|]; [|done].
        specialize (Hs1 Hts). specialize (Hs2 Hts).
        destruct (decide (comp e < p)), (decide (comp e2 < p)); lia. }
      rewrite <- Ht, <- Hcomp in He2. rewrite He1 in He2. injection He2 as <-. lia. }
    assert (Hmod : modify_comp (dec num) s ks (mark (dec num) [] g1) = Ok (mark (dec num) ([] ++ map pi ks) g1)).
    { apply modify_comp_marks. intros pre k post Heq. cbn [app].
      assert (Hinc : increasing ks) by apply increasing_seq.
      assert (Hpre : forall x, x ∈ pre <-> x ∈ ks /\ x < k).
      { intros x. rewrite Heq. apply increasing_split. by rewrite <- Heq. }
      assert (Hk : k ∈ ks) by (rewrite Heq; apply elem_of_app; right; left).
      destruct (Hpi k Hk) as (e & e' & Hr & He & Hf & He' & Hg' & Ht' & Hc' & Hst & Hpk).
      exists e, e'. split; [done|]. split; [done|]. split; [done|]. split.
      { intros Hin. apply elem_of_list_In, in_map_iff in Hin as (k' & Hkk & Hk'%elem_of_list_In).
        apply Hpre in Hk' as [Hk' Hlt]. apply Hinj in Hkk; [|done|done]. lia. }
      (* was this edge's own index updated before? *)
      assert (Hmem : (s, k) ∈ map pi pre <-> tgt e = s /\ p + num <= comp e /\ comp e - num < k).
      { split.
        - intros Hin. apply elem_of_list_In, in_map_iff in Hin as (k' & Hkk & Hk'%elem_of_list_In).
          apply Hpre in Hk' as [Hk' Hlt].
          destruct (Hpi k' Hk') as (e2 & e2' & _ & _ & Hf2 & He2 & _ & Ht2 & Hc2 & _ & _).
          rewrite Hkk in Hf2, He2. cbn [fst snd] in Hf2, He2. rewrite <- Hf2 in He2.
          rewrite He in He2. injection He2 as <-. apply Hks in Hk'. split; [done|]. lia.
        - intros (Hts & Hge & Hlt). apply elem_of_list_In, in_map_iff.
          specialize (Hst Hts). rewrite Hts in Hg'.
          assert (Hk' : comp e - num ∈ ks).
          { apply Hks. split; [lia|]. replace (comp e - num + num) with (comp e) by lia.
            by eapply lookup_lt_Some. }
          exists (comp e - num). split; [|apply elem_of_list_In, Hpre; done].
          destruct (Hpi _ Hk') as (e2 & e2' & Hr2 & _ & _ & _ & _ & _ & _ & _ & Hp2).
          replace (comp e - num + num) with (comp e) in Hr2 by lia.
          fold r in Hg'. rewrite Hg' in Hr2. injection Hr2 as <-. rewrite Hp2, Ht', Hc'.
          rewrite decide_True by done. apply Hks in Hk. rewrite decide_False by lia.
          f_equal. lia. }
      cbn zeta. rewrite Hpk. cbn [snd]. unfold dec. apply Hks in Hk.
      destruct (Nat.eqb_spec (tgt e) s) as [Hts|Hts].
      - specialize (Hst Hts). rewrite (decide_True (P := tgt e = s)) by done.
        destruct (decide ((s, k) ∈ map pi pre)) as [Hin|Hin].
        + apply Hmem in Hin. rewrite decide_False by lia.
          destruct (Nat.leb_spec (comp e - num - num) k); lia.
        + destruct (decide (comp e < p)).
          * destruct (Nat.leb_spec (comp e - num) k); lia.
          * destruct (Nat.leb_spec (comp e - num) k); [|lia].
            destruct (decide (comp e - num = k)); [lia|]. exfalso. apply Hin, Hmem. lia.
      - rewrite (decide_False (P := tgt e = s)) by done.
        rewrite decide_False; [done|]. rewrite Hmem. tauto. }
    rewrite mark_nil in Hmod. rewrite Hmod. f_equal. cbn [app].
    apply graph_eq_lookup; [by rewrite mark_length, del_length|]. intros i m.
    rewrite mark_row, Hrow1, del_row by (unfold r in *; lia || done).
    destruct (row g i !! before_del num s p i m) as [e|] eqn:He; [|done]. simpl. f_equal. unfold lower.
    assert (Hmem : (i, m) ∈ map pi ks <-> tgt e = s /\ p + num <= comp e).
    { split.
      - intros Hin. apply elem_of_list_In, in_map_iff in Hin as (k & Hkk & Hk%elem_of_list_In).
        destruct (Hpi k Hk) as (e2 & e2' & _ & _ & Hf2 & He2 & _ & Ht2 & Hc2 & _ & _).
        rewrite Hkk in Hf2, He2. cbn [fst snd] in Hf2, He2. rewrite <- Hf2 in He2.
        rewrite Hrow1, He in He2. injection He2 as <-. apply Hks in Hk. split; [done|]. lia.
      - intros [Hts Hge]. apply elem_of_list_In, in_map_iff.
        destruct (HB i (before_del num s p i m) e) as (e0 & He0 & Ht0 & Hc0); [|done|done|done|].
        { unfold before_del. destruct (decide _); lia. }
        assert (Hk : comp e - num ∈ ks).
        { apply Hks. split; [lia|]. replace (comp e - num + num) with (comp e) by lia.
          by eapply lookup_lt_Some. }
        exists (comp e - num). split; [|by apply elem_of_list_In].
        destruct (Hpi _ Hk) as (e2 & e2' & Hr2 & _ & _ & _ & _ & _ & _ & _ & Hp2).
        replace (comp e - num + num) with (comp e) in Hr2 by lia.
        fold r in He0. rewrite He0 in Hr2. injection Hr2 as <-. rewrite Hp2, Ht0, Hc0. f_equal.
        unfold before_del. destruct (decide (i = s)).
        + destruct (decide (p <= m)).
          * rewrite (decide_True (P := i = s /\ p <= m)) by done. rewrite decide_False by lia. lia.
          * rewrite (decide_False (P := i = s /\ p <= m)) by tauto. rewrite decide_True by lia. lia.
        + by rewrite (decide_False (P := i = s /\ p <= m)) by tauto. }
    destruct (decide ((i, m) ∈ map pi ks)) as [Hin|Hin].
    - rewrite decide_True by (by apply Hmem). done.
    - rewrite decide_False; [done|]. intros Hx. by apply Hin, Hmem.
  Qed.

  (** *** Graphs in which some half edges [D] are out of order *)

  Definition live (D : nat -> nat -> Prop) g : Prop :=
    forall i k e, row g i !! k = Some e -> ~ D i k ->
      exists e', row g (tgt e) !! comp e = Some e' /\ ~ D (tgt e) (comp e)
        /\ tgt e' = i /\ comp e' = k /\ wt e' = wt e /\ (tgt e, comp e) <> (i, k).

  Lemma comp_ok_live g : comp_ok g <-> live (fun _ _ => False) g.
  Proof.
    split.
    - intros H i k e He _. destruct (H i k e He) as (e' & ? & ? & ? & ? & ?). exists e'. tauto.
    - intros H i k e He. destruct (H i k e He) as (e' & ? & ? & ? & ? & ? & ?); [tauto|]. exists e'. tauto.
  Qed.

  Lemma live_iff (D D' : nat -> nat -> Prop) g :
    (forall i k, is_Some (row g i !! k) -> D i k <-> D' i k) -> live D g -> live D' g.
  Proof.
    intros Hiff H i k e He Hn. destruct (H i k e He) as (e' & He' & Hn' & Ht & Hc & Hw & Hne).
    { intros HD. apply Hn. apply Hiff; [by eexists|done]. }
    exists e'. repeat split; try done. intros HD. apply Hn'. apply Hiff; [by eexists|done].
  Qed.

  (** An edge may be taken out of order with its other half. *)
  Lemma live_both (D : nat -> nat -> Prop) g s p e :
    live D g -> row g s !! p = Some e -> ~ D s p ->
    live (fun i k => D i k \/ (i = s /\ k = p) \/ (i = tgt e /\ k = comp e)) g.
  Proof.
    intros H Hp Hnp i k e0 He0 Hn. destruct (H i k e0 He0) as (e0' & He0' & Hn0 & Ht & Hc & Hw & Hne); [tauto|].
    destruct (H s p e Hp Hnp) as (ep & Hep & _ & Htp & Hcp & _).
    exists e0'. repeat split; try done. intros [HD|[[Hx Hy]|[Hx Hy]]]; [done| |].
    - rewrite Hx, Hy in He0'. rewrite Hp in He0'. injection He0' as <-. apply Hn. right. right. done.
    - rewrite Hx, Hy in He0'. rewrite Hep in He0'. injection He0' as <-. apply Hn. right. left.
      rewrite Htp in Ht. rewrite Hcp in Hc. done.
  Qed.

  Lemma live_pairs_above num s p (D : nat -> nat -> Prop) g :
    live D g ->
    (forall x, p <= x < p + num -> D s x) -> (forall x, p + num <= x -> ~ D s x) ->
    (forall i k e, row g i !! k = Some e -> D i k -> ~ (i = s /\ p <= k < p + num) ->
       tgt e = s -> comp e < p + num) ->
    pairs_above num s p g.
  Proof.
    intros H HD Hafter Hdead. split.
    - intros k e Hk He. destruct (H s k e He) as (e' & He' & Hn' & Ht & Hc & _ & Hne); [by apply Hafter|].
      exists e'. split; [done|]. split; [done|]. split; [done|]. intros Hts. split.
      + intros Hck. apply Hne. congruence.
      + intros Hr. apply Hn'. rewrite Hts. by apply HD.
    - intros i m e' Hnc He' Ht Hge.
      assert (Hn : ~ D i m). { intros Hd. pose proof (Hdead i m e' He' Hd Hnc Ht). lia. }
      destruct (H i m e' He' Hn) as (e & He & _ & Hte & Hce & _). rewrite Ht in He. eauto.
  Qed.

  Lemma live_del num s p (D : nat -> nat -> Prop) g :
    live D g -> s < length g -> p + num <= length (row g s) ->
    (forall x, p <= x < p + num -> D s x) ->
    live (fun i m => D i (before_del num s p i m)) (del num s p g).
  Proof.
    intros H Hs Hp HD i m e0 He0 Hn. rewrite del_row in He0 by lia.
    destruct (row g i !! before_del num s p i m) as [e|] eqn:He; simplify_eq/=.
    destruct (H _ _ _ He Hn) as (e' & He' & Hn' & Ht & Hc & Hw & Hne).
    assert (Htl : forall x : edge W, tgt (lower num s p x) = tgt x) by (intros x; unfold lower; by destruct (decide _)).
    assert (Hwl : forall x : edge W, wt (lower num s p x) = wt x) by (intros x; unfold lower; by destruct (decide _)).
    assert (Hcl : forall x : edge W, comp (lower num s p x) = if decide (tgt x = s /\ p + num <= comp x) then comp x - num else comp x)
      by (intros x; unfold lower; by destruct (decide _)).
    assert (Hback : before_del num s p (tgt e) (comp (lower num s p e)) = comp e).
    { rewrite Hcl. unfold before_del. destruct (decide (tgt e = s /\ p + num <= comp e)).
      - rewrite decide_True by lia. lia.
      - rewrite decide_False; [done|]. intros [Hts Hge]. apply Hn'. rewrite Hts. apply HD. lia. }
    exists (lower num s p e'). rewrite Htl. split.
    { rewrite del_row by lia. by rewrite Hback, He'. }
    rewrite Hback. split; [done|]. rewrite !Htl, !Hwl. split; [done|]. split.
    { rewrite Hcl, Ht, Hc. unfold before_del. destruct (decide (i = s /\ p <= m)) as [[-> Hm]|].
      - rewrite decide_True by lia. lia.
      - rewrite decide_False; [done|]. intros [-> ?]. lia. }
    split; [done|]. intros Heq. injection Heq as Hi Hm. apply Hne. f_equal; [done|].
    rewrite <- Hback. by rewrite Hi, <- Hm.
  Qed.

  (** *** Putting an edge into position [p] of node [s] *)

  Definition raise (ex : list (nat * nat)) (s p i m : nat) (e : edge W) : edge W :=
    if decide (tgt e = s /\ p <= comp e /\ (i, m) ∉ ex) then set_comp (S (comp e)) e else e.

  Definition ins (ex : list (nat * nat)) (s p : nat) (x : edge W) g : graph W :=
    let g1 := imap (fun i r => imap (raise ex s p i) r) g in
    <[s := take p (row g1 s) ++ x :: drop p (row g1 s)]> g1.

  Definition before_ins (s p i m : nat) : nat := if decide (i = s /\ p < m) then m - 1 else m.

  Lemma put_lookup p r x m :
    p <= length r ->
    (take p r ++ x :: drop p r) !! m = if decide (m = p) then Some x else r !! (if decide (p < m) then m - 1 else m).
  Proof.
    intros Hp. destruct (decide (m = p)) as [->|].
    - rewrite list_lookup_middle; [done|]. rewrite take_length. lia.
    - destruct (decide (p < m)).
      + rewrite lookup_app_r by (rewrite take_length; lia). rewrite take_length.
        replace (m - p `min` length r) with (S (m - p - 1)) by lia.
        rewrite <- lookup_tail. cbn [tail]. rewrite lookup_drop. f_equal. lia.
      + rewrite lookup_app_l by (rewrite take_length; lia). by rewrite lookup_take by lia.
  Qed.

  Lemma row_put s p x g i m :
    s < length g -> p <= length (row g s) ->
    row (<[s := take p (row g s) ++ x :: drop p (row g s)]> g) i !! m =
      if decide ((i, m) = (s, p)) then Some x else row g i !! before_ins s p i m.
  Proof.
    intros Hs Hp. rewrite row_insert by done. unfold before_ins. destruct (decide (i = s)) as [->|].
    - rewrite put_lookup by done. destruct (decide (m = p)) as [->|].
      + by rewrite (decide_True (P := (s, p) = (s, p))).
      + rewrite (decide_False (P := (s, m) = (s, p))) by congruence.
        destruct (decide (p < m)).
        * by rewrite (decide_True (P := s = s /\ p < m)).
        * by rewrite (decide_False (P := s = s /\ p < m)) by tauto.
    - rewrite (decide_False (P := (i, m) = (s, p))) by congruence.
      by rewrite (decide_False (P := i = s /\ p < m)) by tauto.
  Qed.

  Lemma row_imap (h : nat -> nat -> edge W -> edge W) g i :
    row (imap (fun i r => imap (h i) r) g) i = imap (h i) (row g i).
  Proof. unfold row. rewrite list_lookup_imap. by destruct (g !! i). Qed.

  Lemma ins_length ex s p x g : length (ins ex s p x g) = length g.
  Proof. unfold ins. by rewrite insert_length, imap_length. Qed.

  Lemma ins_row ex s p x g i m :
    s < length g -> p <= length (row g s) ->
    row (ins ex s p x g) i !! m =
      if decide ((i, m) = (s, p)) then Some x
      else raise ex s p i (before_ins s p i m) <$> row g i !! before_ins s p i m.
  Proof.
    intros Hs Hp. unfold ins. rewrite row_put.
    - destruct (decide _); [done|]. by rewrite row_imap, list_lookup_imap.
    - by rewrite imap_length.
    - by rewrite row_imap, imap_length.
  Qed.

  (** [ks] are the new positions after [p], apart from those out of order. *)
  Lemma modify_ins ex s p x g ks :
    s < length g -> p <= length (row g s) -> live (fun i k => (i, k) ∈ ex) g ->
    increasing ks -> (forall k, k ∈ ks <-> p < k /\ k < S (length (row g s)) /\ (s, k - 1) ∉ ex) ->
    modify_comp (inc 1) s ks (<[s := take p (row g s) ++ x :: drop p (row g s)]> g) = Ok (ins ex s p x g).
  Proof.
    intros Hs Hp Hlive Hinc Hks. set (r := row g s) in *.
    set (g1 := <[s := _]> g).
    assert (Hl1 : length g1 = length g) by apply insert_length.
    assert (Hrow1 : forall i m, row g1 i !! m = if decide ((i, m) = (s, p)) then Some x else row g i !! before_ins s p i m).
    { intros i m. by apply row_put. }
    set (pi := fun k => match r !! (k - 1) with
      | Some e => (tgt e, if decide (tgt e = s) then (if decide (comp e < p) then comp e else comp e + 1) else comp e)
      | None => (0, 0) end).
    assert (Hpi : forall k, k ∈ ks -> exists e e', r !! (k - 1) = Some e /\ row g1 s !! k = Some e
       /\ fst (pi k) = tgt e /\ row g1 (tgt e) !! snd (pi k) = Some e' /\ row g (tgt e) !! comp e = Some e'
       /\ (tgt e, comp e) ∉ ex /\ tgt e' = s /\ comp e' = k - 1 /\ (tgt e = s -> comp e <> k - 1)
       /\ pi k <> (s, p)
       /\ pi k = (tgt e, if decide (tgt e = s) then (if decide (comp e < p) then comp e else comp e + 1) else comp e)).
    { intros k Hk. apply Hks in Hk as (Hk1 & Hk2 & Hex). destruct (lookup_in_range r (k - 1)) as [e He]; [lia|].
      destruct (Hlive s (k - 1) e He Hex) as (e' & He' & Hex' & Ht' & Hc' & _ & Hne).
      assert (Hnp : pi k <> (s, p)).
      { unfold pi. rewrite He. intros [= Ht Hq]. rewrite decide_True in Hq by done. destruct (decide (comp e < p)); lia. }
      exists e, e'. split; [done|]. split.
      { rewrite Hrow1. rewrite decide_False by (intros [=]; lia). unfold before_ins.
        by rewrite decide_True by (split; [done|lia]). }
      split; [unfold pi; by rewrite He|]. split.
      { rewrite Hrow1, decide_False.
        - unfold pi. rewrite He. cbn [snd]. unfold before_ins. destruct (decide (tgt e = s)) as [Hts|Hts].
          + destruct (decide (comp e < p)).
            * rewrite decide_False by lia. done.
            * rewrite decide_True by lia. by replace (comp e + 1 - 1) with (comp e) by lia.
          + rewrite decide_False by tauto. done.
        - intros Heq. apply Hnp. rewrite <- Heq. unfold pi. by rewrite He. }
      split; [done|]. split; [done|]. split; [done|]. split; [done|]. split.
      { intros Hts Hcc. apply Hne. congruence. }
      split; [done|]. unfold pi. by rewrite He. }
    assert (Hinj : forall k k', k ∈ ks -> k' ∈ ks -> pi k = pi k' -> k = k').
    { intros k k' Hk Hk' Heq.
      destruct (Hpi k Hk) as (e & e' & _ & _ & _ & _ & He1 & _ & _ & Hc1 & _ & _ & Hp1).
      destruct (Hpi k' Hk') as (e2 & e2' & _ & _ & _ & _ & He2 & _ & _ & Hc2 & _ & _ & Hp2).
      rewrite Hp1, Hp2 in Heq. injection Heq as Ht Hq.
      assert (Hcomp : comp e = comp e2).
      { rewrite <- Ht in Hq. destruct (decide (tgt e = s)) as [Hts|]; [|done].
        destruct (decide (comp e < p)), (decide (comp e2 < p)); lia. }
      rewrite <- Ht, <- Hcomp in He2. rewrite He1 in He2. injection He2 as <-.
      apply Hks in Hk, Hk'. lia. }
    assert (Hmod : modify_comp (inc 1) s ks (mark (inc 1) [] g1) = Ok (mark (inc 1) ([] ++ map pi ks) g1)).
    { apply modify_comp_marks. intros pre k post Heq. cbn [app].
      assert (Hpre : forall x, x ∈ pre <-> x ∈ ks /\ x < k).
      { intros y. rewrite Heq. apply increasing_split. by rewrite <- Heq. }
      assert (Hk : k ∈ ks) by (rewrite Heq; apply elem_of_app; right; left).
      destruct (Hpi k Hk) as (e & e' & Hr & He & Hf & He' & Hg' & Hex' & Ht' & Hc' & Hst & Hnp & Hpk).
      exists e, e'. split; [done|]. split; [done|]. split; [done|]. split.
      { intros Hin. apply elem_of_list_In, in_map_iff in Hin as (k' & Hkk & Hk'%elem_of_list_In).
        apply Hpre in Hk' as [Hk' Hlt]. apply Hinj in Hkk; [|done|done]. lia. }
      assert (Hmem : (s, k) ∈ map pi pre <-> tgt e = s /\ p <= comp e /\ comp e + 1 < k).
      { split.
        - intros Hin. apply elem_of_list_In, in_map_iff in Hin as (k' & Hkk & Hk'%elem_of_list_In).
          apply Hpre in Hk' as [Hk' Hlt].
          destruct (Hpi k' Hk') as (e2 & e2' & _ & _ & Hf2 & He2 & _ & _ & Ht2 & Hc2 & _ & _ & _).
          rewrite Hkk in Hf2, He2. cbn [fst snd] in Hf2, He2. rewrite <- Hf2 in He2.
          rewrite He in He2. injection He2 as <-. apply Hks in Hk'. split; [done|]. lia.
        - intros (Hts & Hge & Hlt). apply elem_of_list_In, in_map_iff.
          rewrite Hts in Hg', Hex'.
          assert (Hk' : comp e + 1 ∈ ks).
          { apply Hks. replace (comp e + 1 - 1) with (comp e) by lia. split; [lia|]. split; [|done].
            pose proof (lookup_lt_Some _ _ _ Hg'). fold r in H. lia. }
          exists (comp e + 1). split; [|apply elem_of_list_In, Hpre; done].
          destruct (Hpi _ Hk') as (e2 & e2' & Hr2 & _ & _ & _ & _ & _ & _ & _ & _ & _ & Hp2).
          replace (comp e + 1 - 1) with (comp e) in Hr2 by lia.
          fold r in Hg'. rewrite Hg' in Hr2. injection Hr2 as <-. rewrite Hp2, Ht', Hc'.
          rewrite decide_True by done. apply Hks in Hk. rewrite decide_False by lia.
          f_equal. lia. }
      cbn zeta. rewrite Hpk. cbn [snd]. unfold inc. apply Hks in Hk.
      destruct (Nat.eqb_spec (tgt e) s) as [Hts|Hts].
      - specialize (Hst Hts). rewrite (decide_True (P := tgt e = s)) by done.
        destruct (decide ((s, k) ∈ map pi pre)) as [Hin|Hin].
        + apply Hmem in Hin. rewrite decide_False by lia.
          destruct (Nat.leb_spec (comp e + 1 + 1) k); lia.
        + destruct (decide (comp e < p)).
          * destruct (Nat.leb_spec (comp e + 1) k); lia.
          * destruct (Nat.leb_spec (comp e + 1) k); [|lia].
            destruct (decide (comp e + 1 = k)); [lia|]. exfalso. apply Hin, Hmem. lia.
      - rewrite (decide_False (P := tgt e = s)) by done.
        rewrite decide_False; [done|]. rewrite Hmem. tauto. }
    rewrite mark_nil in Hmod. rewrite Hmod. f_equal. cbn [app].
    apply graph_eq_lookup; [by rewrite mark_length, ins_length|]. intros i m.
    rewrite mark_row, Hrow1, ins_row by done.
    destruct (decide ((i, m) = (s, p))) as [Heq|Hnp].
    { simpl. f_equal. rewrite decide_False; [done|]. intros Hin.
      apply elem_of_list_In, in_map_iff in Hin as (k & Hkk & Hk%elem_of_list_In).
      destruct (Hpi k Hk) as (e2 & e2' & _ & _ & _ & _ & _ & _ & _ & _ & _ & Hnn & _). congruence. }
    destruct (row g i !! before_ins s p i m) as [e|] eqn:He; [|done]. simpl. f_equal. unfold raise.
    assert (Hmem : (i, m) ∈ map pi ks <-> tgt e = s /\ p <= comp e /\ (i, before_ins s p i m) ∉ ex).
    { split.
      - intros Hin. apply elem_of_list_In, in_map_iff in Hin as (k & Hkk & Hk%elem_of_list_In).
        destruct (Hpi k Hk) as (e2 & e2' & Hr2 & _ & Hf2 & He2 & Hg2 & Hex2 & Ht2 & Hc2 & Hst & Hn2 & Hp2).
        rewrite Hkk in Hf2, He2. cbn [fst snd] in Hf2, He2. rewrite <- Hf2 in He2.
        rewrite Hrow1, decide_False, He in He2 by done. injection He2 as <-. apply Hks in Hk.
        split; [done|]. split; [lia|]. rewrite Hkk in Hp2. injection Hp2 as -> Hm.
        assert (Hcb : before_ins s p (tgt e2) m = comp e2).
        { rewrite Hm. unfold before_ins. destruct (decide (tgt e2 = s)).
          - destruct (decide (comp e2 < p)).
            + rewrite decide_False by lia. done.
            + rewrite decide_True by lia. lia.
          - by rewrite decide_False by tauto. }
        by rewrite Hcb.
      - intros (Hts & Hge & Hex). apply elem_of_list_In, in_map_iff.
        destruct (Hlive i (before_ins s p i m) e He Hex) as (e0 & He0 & Hex0 & Ht0 & Hc0 & _).
        rewrite Hts in He0, Hex0.
        assert (Hk : comp e + 1 ∈ ks).
        { apply Hks. replace (comp e + 1 - 1) with (comp e) by lia. split; [lia|]. split; [|done].
          pose proof (lookup_lt_Some _ _ _ He0). fold r in H. lia. }
        exists (comp e + 1). split; [|by apply elem_of_list_In].
        destruct (Hpi _ Hk) as (e2 & e2' & Hr2 & _ & _ & _ & _ & _ & _ & _ & _ & _ & Hp2).
        replace (comp e + 1 - 1) with (comp e) in Hr2 by lia.
        fold r in He0. rewrite He0 in Hr2. injection Hr2 as <-. rewrite Hp2, Ht0, Hc0. f_equal.
        unfold before_ins. destruct (decide (i = s)) as [His|].
        + destruct (decide (p < m)).
          * rewrite (decide_True (P := i = s /\ p < m)) by done. rewrite decide_False by lia. lia.
          * rewrite (decide_False (P := i = s /\ p < m)) by tauto.
            destruct (decide (m = p)); [exfalso; apply Hnp; congruence|]. rewrite decide_True by lia. lia.
        + by rewrite (decide_False (P := i = s /\ p < m)) by tauto. }
    unfold inc. destruct (decide ((i, m) ∈ map pi ks)) as [Hin|Hin].
    - rewrite decide_True by (by apply Hmem). by rewrite Nat.add_1_r.
    - rewrite decide_False; [done|]. intros Hx. by apply Hin, Hmem.
  Qed.

  Lemma live_ins ex s p x g :
    live (fun i k => (i, k) ∈ ex) g -> s < length g -> p <= length (row g s) ->
    live (fun i m => (i, m) = (s, p) \/ (i, before_ins s p i m) ∈ ex) (ins ex s p x g).
  Proof.
    intros H Hs Hp i m e0 He0 Hn. rewrite ins_row in He0 by done.
    rewrite decide_False in He0 by tauto.
    destruct (row g i !! before_ins s p i m) as [e|] eqn:He; simplify_eq/=.
    assert (Hex : (i, before_ins s p i m) ∉ ex) by tauto.
    destruct (H _ _ _ He Hex) as (e' & He' & Hn' & Ht & Hc & Hw & Hne).
    assert (Htl : forall a b (y : edge W), tgt (raise ex s p a b y) = tgt y) by (intros a b y; unfold raise; by destruct (decide _)).
    assert (Hwl : forall a b (y : edge W), wt (raise ex s p a b y) = wt y) by (intros a b y; unfold raise; by destruct (decide _)).
    assert (Hcl : forall a b (y : edge W), (a, b) ∉ ex ->
      comp (raise ex s p a b y) = if decide (tgt y = s /\ p <= comp y) then S (comp y) else comp y).
    { intros a b y Hab. unfold raise. destruct (decide (tgt y = s /\ p <= comp y)).
      - rewrite decide_True by tauto. done.
      - rewrite decide_False by tauto. done. }
    set (c := comp (raise ex s p i (before_ins s p i m) e)).
    assert (Hc' : c = if decide (tgt e = s /\ p <= comp e) then S (comp e) else comp e) by (by apply Hcl).
    assert (Hback : before_ins s p (tgt e) c = comp e).
    { rewrite Hc'. unfold before_ins. destruct (decide (tgt e = s /\ p <= comp e)).
      - rewrite decide_True by lia. lia.
      - rewrite decide_False by lia. done. }
    assert (Hnp : (tgt e, c) <> (s, p)).
    { intros [= Hts Hcp]. rewrite Hc' in Hcp. destruct (decide (tgt e = s /\ p <= comp e)); lia. }
    exists (raise ex s p (tgt e) (comp e) e'). rewrite Htl. fold c. split.
    { rewrite ins_row by done. rewrite decide_False by done. by rewrite Hback, He'. }
    rewrite Hback. split; [tauto|]. rewrite !Htl, !Hwl. split; [done|]. split.
    { rewrite Hcl, Ht, Hc by done. unfold before_ins. destruct (decide (i = s /\ p < m)) as [[-> Hm]|Hm].
      - rewrite decide_True by lia. lia.
      - rewrite decide_False; [done|]. intros [-> Hle]. apply Hn. left. f_equal.
        destruct (decide (p < m)); [tauto|]. lia. }
    split; [done|]. intros Heq. injection Heq as Hi Hm. apply Hne. f_equal; [done|].
    rewrite <- Hback. by rewrite Hi, <- Hm.
  Qed.

  (** Two halves that fit each other are in order. *)
  Lemma live_finish g a b x y :
    live (fun i k => (i, k) = a \/ (i, k) = b) g -> a <> b ->
    row g (fst a) !! snd a = Some x -> row g (fst b) !! snd b = Some y ->
    (tgt x, comp x) = b -> (tgt y, comp y) = a -> wt x = wt y -> comp_ok g.
  Proof.
    intros H Hab Hx Hy Hxb Hya Hw i k e He.
    destruct (decide ((i, k) = a)) as [Ha|Ha]; [|destruct (decide ((i, k) = b)) as [Hb|Hb]].
    - subst a b. cbn [fst snd] in *. simplify_eq. exists y. naive_solver.
    - subst a b. cbn [fst snd] in *. simplify_eq. exists x. naive_solver.
    - destruct (H i k e He) as (e' & ? & _ & ? & ? & ? & ?); [tauto|]. exists e'. tauto.
  Qed.
End comp.
