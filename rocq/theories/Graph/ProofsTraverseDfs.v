From Coq Require Import Sorted.
From stdpp Require Import list.
From Verif.Base Require Import Outcome ListLemmas.
From Verif.Graph Require Import Model Spec ModelTraverse SpecTraverse ProofsBase ProofsTraverse ProofsTraverseEdges.
Local Open Scope res_scope.

Lemma befores_elem es n : n ∈ befores es <-> Before n ∈ es.
Proof.
  unfold befores. rewrite elem_of_list_omap. split.
  - intros ([] & Hx & [= ->]). done.
  - intros H. by exists (Before n).
Qed.

Lemma afters_elem es n : n ∈ afters es <-> After n ∈ es.
Proof.
  unfold afters. rewrite elem_of_list_omap. split.
  - intros ([] & Hx & [= ->]). done.
  - intros H. by exists (After n).
Qed.

Lemma precedes_prefix l l2 x y : precedes l x y -> precedes (l ++ l2) x y.
Proof. apply (precedes_mid l []). Qed.

Lemma sublist_sorted (l l' : list nat) : l `sublist_of` l' -> StronglySorted lt l' -> StronglySorted lt l.
Proof.
  induction 1 as [|x l l' Hs IH|x l l' Hs IH]; intros H; [constructor|..]; apply StronglySorted_inv in H as [H1 H2].
  - constructor; [by apply IH|]. rewrite Forall_forall in H2 |- *. intros y Hy. apply H2. eapply elem_of_submseteq; [done|by apply sublist_submseteq].
  - by apply IH.
Qed.

Lemma seq_sorted a n : StronglySorted lt (seq a n).
Proof.
  revert a. induction n as [|n IH]; intros a; cbn; [constructor|]. constructor; [apply IH|].
  apply Forall_forall. intros x Hx. apply elem_of_list_In, in_seq in Hx. lia.
Qed.

Section dfs.
  Context {W : Type} (g : graph W).
  Context (Hin : in_range g).
  Implicit Types e : edge W.
  Implicit Types r : list (edge W).
  Local Notation N := (length g).

  Record dgood (s : tstate) (D : list nat) : Prop := {
    dg_disc : knows N (disc s) D;
    dg_procd : length (procd s) = N;
    dg_num : num s = length D;
    dg_nodup : NoDup D;
    dg_lt : forall x, x ∈ D -> x < N
  }.

  Lemma dgood_emit s D x : dgood s D -> dgood (emit x s) D.
  Proof. intros []; by split. Qed.

  Lemma dregister_ok s D n :
    dgood s D -> n < N -> n ∉ D ->
    exists s', register n s = Ok s' /\ dgood s' (D ++ [n]) /\ out s' = out s /\ restart s' = restart s.
  Proof.
    intros [H1 H2 H3 H4 H5] Hn Hnot. destruct (knows_set N _ _ _ H1 Hn) as (d & Hd & Hk).
    unfold register. rewrite Hd. cbn [rbind]. eexists. split; [done|]. split; [|done].
    split; cbn; [done|done| | |].
    - rewrite app_length, H3. simpl. lia.
    - apply NoDup_app. split; [done|]. split; [|apply NoDup_singleton].
      intros x Hx Hx'%elem_of_list_singleton. by subst.
    - intros x [Hx| ->%elem_of_list_singleton]%elem_of_app; auto.
  Qed.

  Definition branch_events (n : nat) (bs : list (nat * tree)) : list event :=
    concat (map (fun b => First n b.1 :: tree_events b.2) bs).

  Lemma tree_events_node n bs : tree_events (Node n bs) = Before n :: branch_events n bs ++ [After n].
  Proof. done. Qed.

  (** Visiting from [n] discovers [n :: D'], makes the calls [es]. *)
  Record visits (D : list nat) (n : nat) (D' : list nat) (t : tree) : Prop := {
    vs_root : root t = n;
    vs_tree : tree_of g t;
    vs_before : befores (tree_events t) = n :: D';
    vs_after : afters (tree_events t) ≡ₚ n :: D';
    vs_reach : forall x, x ∈ n :: D' -> reaches g n x;
    vs_edges : forall u e, u ∈ n :: D' -> e ∈ row g u ->
      tgt e ∈ D \/ precedes (tree_events t) (Before (tgt e)) (After u)
  }.

  Record branches (D : list nat) (n : nat) (ks : list nat) (D' : list nat) (bs : list (nat * tree)) : Prop := {
    br_tree : Forall (fun b => tgt <$> row g n !! b.1 = Some (root b.2) /\ tree_of g b.2) bs;
    br_ks : map fst bs `sublist_of` ks;
    br_before : befores (branch_events n bs) = D';
    br_after : afters (branch_events n bs) ≡ₚ D';
    br_reach : forall x, x ∈ D' -> reaches g n x;
    br_targets : forall k e, k ∈ ks -> row g n !! k = Some e -> tgt e ∈ D ++ D';
    br_edges : forall u e, u ∈ D' -> e ∈ row g u ->
      tgt e ∈ D \/ precedes (branch_events n bs) (Before (tgt e)) (After u)
  }.

  Lemma reaches_through n e x : e ∈ row g n -> reaches g (tgt e) x -> reaches g n x.
  Proof.
    intros He [d Hd]. induction Hd as [|v e' d Hd [d' IHd] He'].
    - exists 1. eapply path_step; [constructor|done].
    - exists (S d'). by eapply path_step.
  Qed.

  Definition visit_ok (visit : nat -> tstate -> res tstate) (m : nat) : Prop :=
    forall s D n, dgood s D -> n < N -> n ∈ D -> N < length D + m ->
      exists s' D' t, visit n s = Ok s' /\ dgood s' (D ++ D') /\ visits D n D' t
        /\ out s' = out s ++ tree_events t /\ restart s' = restart s.

  Lemma dfs_edges_ok visit m n ks s D :
    visit_ok visit m -> dgood s D -> N <= length D + m ->
    (forall k, k ∈ ks -> k < length (row g n)) ->
    exists s' D' bs, dfs_edges visit n (row g n) ks s = Ok s' /\ dgood s' (D ++ D') /\ branches D n ks D' bs
      /\ out s' = out s ++ branch_events n bs /\ restart s' = restart s.
  Proof.
    intros Hv. revert s D. induction ks as [|k ks IH]; intros s D H Hm Hks; cbn [dfs_edges].
    { exists s, [], []. rewrite !app_nil_r. split; [done|]. split; [done|]. split; [|done].
      split; try done; intros; by (match goal with H : _ ∈ [] |- _ => apply elem_of_nil in H end). }
    destruct (lookup_in_range (row g n) k) as [e He]; [apply Hks; left|].
    unfold rget at 1. rewrite He. cbn [rbind].
    assert (Her : e ∈ row g n) by by eapply elem_of_list_lookup_2.
    assert (Ht : tgt e < N) by by apply (Hin n).
    rewrite (knows_get N _ _ _ (dg_disc _ _ H) Ht). cbn [rbind].
    assert (Hks' : forall k, k ∈ ks -> k < length (row g n)) by (intros; apply Hks; by right).
    destruct (decide (tgt e ∈ D)) as [Hd|Hd].
    - rewrite bool_decide_true by done. cbn [rbind].
      destruct (IH s D H Hm Hks') as (s' & D' & bs & Hs & Hg & [B1 B2 B3 B4 B5 B6 B7] & Ho & Hr).
      exists s', D', bs. split; [done|]. split; [done|]. split; [|done]. split; try done.
      + by apply sublist_cons.
      + intros k' e' Hk' He'. apply elem_of_cons in Hk' as [->|Hk']; [|by eapply B6].
        assert (e' = e) as -> by congruence. apply elem_of_app. by left.
    - rewrite bool_decide_false by done.
      destruct (dregister_ok (emit (First n k) s) D (tgt e) (dgood_emit _ _ _ H) Ht Hd) as (s1 & Hs1 & H1 & Ho1 & Hr1).
      rewrite Hs1. cbn [rbind].
      destruct (Hv s1 (D ++ [tgt e]) (tgt e) H1 Ht) as (s2 & D2 & t & Hs2 & H2 & [V1 V2 V3 V4 V5 V6] & Ho2 & Hr2).
      { apply elem_of_app. right. left. } { rewrite app_length. simpl. lia. }
      rewrite Hs2. cbn [rbind].
      destruct (IH s2 ((D ++ [tgt e]) ++ D2) H2) as (s3 & D3 & bs & Hs3 & H3 & [B1 B2 B3 B4 B5 B6 B7] & Ho3 & Hr3); [|done|].
      { rewrite !app_length. simpl. lia. }
      assert (HD : ((D ++ [tgt e]) ++ D2) ++ D3 = D ++ (tgt e :: D2) ++ D3) by (by rewrite <- !app_assoc).
      rewrite HD in H3, B6.
      exists s3, ((tgt e :: D2) ++ D3), ((k, t) :: bs). split; [done|]. split; [done|].
      assert (Hev : branch_events n ((k, t) :: bs) = First n k :: tree_events t ++ branch_events n bs) by done.
      split; [|split].
      + split.
        * constructor; [|done]. cbn. rewrite He, V1. done.
        * cbn. by apply sublist_skip.
        * rewrite Hev. change (First n k :: ?a) with ([First n k] ++ a). rewrite !befores_app, V3, B3. done.
        * rewrite Hev. change (First n k :: ?a) with ([First n k] ++ a). rewrite !afters_app, V4, B4. done.
        * intros x [Hx|Hx]%elem_of_app; [|by apply B5]. apply (reaches_through n e); [done|]. by apply V5.
        * intros k' e' Hk' He'. apply elem_of_cons in Hk' as [->|Hk']; [|by eapply B6].
          assert (e' = e) as -> by congruence. rewrite !elem_of_app. right. left. left.
        * intros u e' [Hu|Hu]%elem_of_app He'; rewrite Hev.
          -- destruct (V6 u e' Hu He') as [[HD'|HD'%elem_of_list_singleton]%elem_of_app|Hp]; [by left|..]; right.
             ++ rewrite HD'. apply precedes_cons, precedes_prefix. destruct t as [n' bs']. cbn in V1. subst n'.
                rewrite tree_events_node in V4 |- *. apply precedes_head.
                rewrite <- V4 in Hu. apply afters_elem in Hu. apply elem_of_cons in Hu as [Hu|Hu]; [done|done].
             ++ by apply precedes_cons, precedes_prefix.
          -- destruct (B7 u e' Hu He') as [HD'|Hp]; [|right; by apply precedes_cons, precedes_suffix].
             rewrite <- app_assoc in HD'. apply elem_of_app in HD' as [HD'|HD']; [by left|]. right.
             apply precedes_cons, precedes_app; [|].
             ++ apply befores_elem. by rewrite V3.
             ++ apply afters_elem. by rewrite B4.
      + rewrite Ho3, Ho2, Ho1, Hev. cbn. rewrite <- !app_assoc. done.
      + rewrite Hr3, Hr2, Hr1. done.
  Qed.

  Lemma dfs_ok m : visit_ok (dfs m g) m.
  Proof.
    induction m as [|m IH]; intros s D n H Hn HnD Hm.
    { pose proof (NoDup_bounded _ N (dg_nodup _ _ H) (dg_lt _ _ H)). lia. }
    cbn [dfs]. destruct (Nat.ltb_spec n N); [|lia]. rewrite rget_row by done. cbn [rbind].
    destruct (dfs_edges_ok (dfs m g) m n (seq 0 (length (row g n))) (emit (Before n) s) D IH) as (s1 & D' & bs & Hs1 & H1 & [B1 B2 B3 B4 B5 B6 B7] & Ho1 & Hr1).
    { by apply dgood_emit. } { lia. } { intros k Hk. apply elem_of_list_In, in_seq in Hk. lia. }
    rewrite Hs1. cbn [rbind].
    destruct (lookup_in_range (procd (emit (After n) s1)) n) as [b Hb]. { cbn. by rewrite (dg_procd _ _ H1). }
    unfold rset. rewrite Hb. cbn [rbind]. eexists _, D', (Node n bs). split; [done|].
    split; [|split; [|split]].
    - destruct H1. split; cbn; try done. by rewrite insert_length.
    - split; [done| | | | |].
      + constructor; [done|]. eapply sublist_sorted; [exact B2|apply seq_sorted].
      + rewrite tree_events_node. change (Before n :: ?a) with ([Before n] ++ a). rewrite !befores_app, B3. cbn. by rewrite app_nil_r.
      + rewrite tree_events_node. change (Before n :: ?a) with ([Before n] ++ a). rewrite !afters_app, B4. cbn. by rewrite <- Permutation_cons_append.
      + intros x [->|Hx]%elem_of_cons; [exists 0; constructor|by apply B5].
      + intros u e Hu He. rewrite tree_events_node. apply elem_of_cons in Hu as [->|Hu].
        * apply elem_of_list_lookup in He as [k Hk]. assert (Hks : k ∈ seq 0 (length (row g n))).
          { apply elem_of_list_In, in_seq. apply lookup_lt_Some in Hk. lia. }
          specialize (B6 k e Hks Hk). apply elem_of_app in B6 as [B6|B6]; [by left|right].
          apply precedes_cons, precedes_app; [|left]. apply befores_elem. by rewrite B3.
        * destruct (B7 u e Hu He) as [?|Hp]; [by left|right]. by apply precedes_cons, precedes_prefix.
    - cbn. rewrite Ho1. cbn. by rewrite <- !app_assoc.
    - cbn. by rewrite Hr1.
  Qed.

  Context (find_all : bool) (start : nat).

  Record dbetween (s : tstate) (P : list nat) : Prop := {
    db_good : dgood s P;
    db_restart : forall j, j < restart s -> j ∈ P
  }.

  Lemma dnext_start_ok s P :
    dbetween s P -> length P < N -> start < N -> (find_all = false -> P = []) ->
    exists i s', next_start find_all start s = Ok (i, s') /\ i < N /\ i ∉ P /\ dbetween s' P /\ out s' = out s
      /\ (P = [] -> i = start).
  Proof.
    intros H Hl Hs Hone. unfold next_start. destruct (decide (P = [])) as [->|HP].
    - rewrite (dg_num _ _ (db_good _ _ H)). rewrite andb_false_r. exists start, s.
      split; [done|]. split; [done|]. split; [apply not_elem_of_nil|]. done.
    - assert (find_all = true) as -> by (destruct find_all; [done|]; exfalso; by apply HP, Hone).
      rewrite (dg_num _ _ (db_good _ _ H)). destruct (Nat.eqb_spec (length P) 0) as [E|_]; [by apply nil_length_inv in E|]. cbn [andb negb].
      destruct (skip_ok g (S (length (disc s) - restart s)) (disc s) P (restart s)) as (i & Hi & H1 & H2 & H3).
      + apply (dg_disc _ _ (db_good _ _ H)).
      + apply (db_restart _ _ H).
      + destruct (decide (Forall (fun x => x ∈ P) (seq 0 N))) as [Hall|Hnot].
        * exfalso. assert (length (seq 0 N) <= length P); [|rewrite seq_length in *; lia].
          apply submseteq_length, NoDup_submseteq; [apply NoDup_ListNoDup, seq_NoDup|]. by apply Forall_forall.
        * apply not_Forall_Exists in Hnot; [|apply _]. apply Exists_exists in Hnot as (x & Hx & Hnx).
          apply elem_of_list_In, in_seq in Hx. exists x. split; [lia|done].
      + destruct (dg_disc _ _ (db_good _ _ H)) as [-> _]. lia.
      + rewrite Hi. cbn [rbind]. eexists i, _. split; [done|]. split; [done|]. split; [done|]. split; [|done].
        destruct H as [Hg Hr]. split; cbn; [by destruct Hg|done].
  Qed.

  (** The calls [es] made while the nodes [P'] are visited, after [P]. *)
  Record forest (P P' : list nat) (ts : list tree) (es : list event) : Prop := {
    fo_events : es = concat (map tree_events ts);
    fo_trees : Forall (tree_of g) ts;
    fo_before : befores es = P';
    fo_after : afters es ≡ₚ P';
    fo_edges : forall u e, u ∈ P' -> e ∈ row g u -> tgt e ∈ P \/ precedes es (Before (tgt e)) (After u)
  }.

  Lemma dfs_searches_ok fuel s P :
    dbetween s P -> length P < N -> start < N -> (find_all = false -> P = []) -> N <= length P + fuel ->
    exists s' P' ts es, dfs_searches fuel find_all start g s = Ok s' /\ dbetween s' (P ++ P')
      /\ out s' = out s ++ es /\ forest P P' ts es /\ (find_all = true -> length (P ++ P') = N)
      /\ (P = [] -> root <$> head ts = Some start) /\ (P = [] -> head P' = Some start)
      /\ (find_all = false -> length ts = 1 /\ forall x, x ∈ P' -> reaches g start x).
  Proof.
    revert s P. induction fuel as [|fuel IH]; intros s P H Hl Hs Hone Hfuel; [lia|]. cbn [dfs_searches].
    destruct (dnext_start_ok s P H Hl Hs Hone) as (i & s0 & Hn & Hi & Hni & H0 & Ho0 & Hhd). rewrite Hn. cbn [rbind fst snd].
    destruct (dregister_ok s0 P i (db_good _ _ H0) Hi Hni) as (s1 & Hs1 & H1 & Ho1 & Hr1). rewrite Hs1. cbn [rbind].
    destruct (dfs_ok N s1 (P ++ [i]) i H1 Hi) as (s2 & D' & t & Hs2 & H2 & [V1 V2 V3 V4 V5 V6] & Ho2 & Hr2).
    { apply elem_of_app. right. left. } { rewrite app_length. simpl. lia. }
    rewrite Hs2. cbn [rbind]. rewrite <- app_assoc in H2. cbn [app] in H2.
    assert (Hb2 : dbetween s2 (P ++ i :: D')).
    { split; [done|]. rewrite Hr2, Hr1. intros j Hj. apply elem_of_app. left. by apply (db_restart _ _ H0). }
    assert (Hed : forall u e, u ∈ i :: D' -> e ∈ row g u -> tgt e ∈ P \/ precedes (tree_events t) (Before (tgt e)) (After u)).
    { intros u e Hu He. destruct (V6 u e Hu He) as [[HP|HP%elem_of_list_singleton]%elem_of_app|Hp]; [by left| |by right]. right.
      rewrite HP. destruct t as [n' bs']. cbn in V1. subst n'. rewrite tree_events_node in V4 |- *. apply precedes_head.
      rewrite <- V4 in Hu. apply afters_elem in Hu. by apply elem_of_cons in Hu as [Hu|Hu]. }
    rewrite (dg_num _ _ H2).
    destruct (negb find_all || (length (P ++ i :: D') =? N)) eqn:Hterm.
    - exists s2, (i :: D'), [t], (tree_events t). split; [done|]. split; [done|]. split; [by rewrite Ho2, Ho1, Ho0|]. split.
      { split; [by cbn; rewrite app_nil_r|by constructor|done|done|done]. }
      split; [|split; [|split]].
      + intros ->. simpl in Hterm. by apply Nat.eqb_eq.
      + intros HP. cbn. rewrite V1. f_equal. by apply Hhd.
      + intros HP. simpl. f_equal. by apply Hhd.
      + intros Hfa. split; [done|]. rewrite Hhd in V5 by by apply Hone. rewrite Hhd by by apply Hone. done.
    - apply orb_false_iff in Hterm as [Hfa Hlen]. apply negb_false_iff in Hfa. apply Nat.eqb_neq in Hlen.
      destruct (IH s2 (P ++ i :: D') Hb2) as (s' & P'' & ts & es & Hs' & H' & Ho' & [F1 F2 F3 F4 F5] & Hall & _ & _ & _); [|done|congruence| |].
      + pose proof (NoDup_bounded _ N (dg_nodup _ _ H2) (dg_lt _ _ H2)). lia.
      + rewrite app_length. simpl. lia.
      + exists s', (i :: D' ++ P''), (t :: ts), (tree_events t ++ es). rewrite <- app_assoc in H', Hall. cbn [app] in H', Hall.
        split; [done|]. split; [done|]. split; [by rewrite Ho', Ho2, Ho1, Ho0, <- app_assoc|]. split.
        { split.
          - cbn. by rewrite F1.
          - by constructor.
          - by rewrite befores_app, V3, F3.
          - by rewrite afters_app, V4, F4.
          - intros u e Hu He. change (i :: D' ++ P'') with ((i :: D') ++ P'') in Hu. apply elem_of_app in Hu as [Hu|Hu].
            + destruct (Hed u e Hu He) as [?|?]; [by left|right; by apply precedes_prefix].
            + destruct (F5 u e Hu He) as [[HP|HP]%elem_of_app|?]; [by left|right|right; by apply precedes_suffix].
              apply precedes_app; [apply befores_elem; by rewrite V3|]. apply afters_elem. by rewrite F4. }
        split; [done|]. split; [|split].
        * intros HP. cbn. rewrite V1. f_equal. by apply Hhd.
        * intros HP. simpl. f_equal. by apply Hhd.
        * congruence.
  Qed.

  Lemma traverse_dfs_ok :
    start < N ->
    exists es ts, traverse_dfs find_all start g = Ok es
      /\ es = concat (map tree_events ts) /\ Forall (tree_of g) ts /\ root <$> head ts = Some start
      /\ (find_all = false -> length ts = 1)
      /\ NoDup (befores es) /\ (forall n, n ∈ befores es <-> wanted g find_all start n)
      /\ afters es ≡ₚ befores es
      /\ (forall u e, u ∈ befores es -> e ∈ row g u -> precedes es (Before (tgt e)) (After u)).
  Proof.
    intros Hs. unfold traverse_dfs. destruct (Nat.ltb_spec start N); [|lia].
    destruct (dfs_searches_ok N (start_state g) []) as (s' & P & ts & es & Hs' & H' & Ho & [F1 F2 F3 F4 F5] & Hall & Hrt & Hhd & Hre); [|simpl; lia|done|done|simpl; lia|].
    - split; cbn; [|lia]. split; cbn; [apply knows_nil|apply replicate_length|done|constructor|]. intros x Hx. by apply elem_of_nil in Hx.
    - exists es, ts. rewrite Hs'. cbn [rbind]. rewrite Ho. cbn [app start_state out]. rewrite F3.
      cbn [app] in H'. destruct H' as [Hg _]. specialize (Hhd eq_refl). specialize (Hrt eq_refl).
      assert (Hed : forall u e, u ∈ P -> e ∈ row g u -> precedes es (Before (tgt e)) (After u)).
      { intros u e Hu He. destruct (F5 u e Hu He) as [HP|?]; [by apply elem_of_nil in HP|done]. }
      split; [done|]. split; [done|]. split; [done|]. split; [done|]. split; [intros Hfa; by apply Hre|].
      split; [by destruct Hg|]. split; [|split; done].
      intros n. unfold wanted. destruct find_all.
      + split; [by apply (dg_lt _ _ Hg)|]. intros Hn. apply (NoDup_full P N n); [by destruct Hg..|by apply Hall|done].
      + split; [by apply Hre|]. apply (reaches_closed g); [|destruct P; [done|]; injection Hhd as ->; left].
        intros u e Hu He. rewrite <- F3. apply befores_elem. destruct (Hed u e Hu He) as (l1 & l2 & l3 & ->).
        apply elem_of_app. right. left.
  Qed.
End dfs.
