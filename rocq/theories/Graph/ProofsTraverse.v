From stdpp Require Import list.
From Verif.Base Require Import Outcome ListLemmas.
From Verif.Graph Require Import Model Spec ModelTraverse SpecTraverse ProofsBase.
Local Open Scope res_scope.

Lemma NoDup_bounded (l : list nat) n : NoDup l -> (forall x, x ∈ l -> x < n) -> length l <= n.
Proof.
  intros Hn Hl. rewrite <- (seq_length n 0). apply submseteq_length, NoDup_submseteq; [done|].
  intros x Hx. apply elem_of_list_In, in_seq. specialize (Hl x Hx). lia.
Qed.

Lemma NoDup_full (l : list nat) n x : NoDup l -> (forall x, x ∈ l -> x < n) -> length l = n -> x < n -> x ∈ l.
Proof.
  intros Hn Hl Hlen Hx. destruct (decide (x ∈ l)) as [|Hnot]; [done|]. exfalso.
  assert (length (x :: l) <= n); [|simpl in *; lia]. apply NoDup_bounded; [by constructor|].
  intros y [->|Hy]%elem_of_cons; auto.
Qed.

Section known.
  Context (N : nat).

  (** The bitset [b] holds the elements of [D]. *)
  Definition knows (b : list bool) (D : list nat) : Prop :=
    length b = N /\ forall i, i < N -> b !! i = Some (bool_decide (i ∈ D)).

  Lemma knows_get b D i : knows b D -> i < N -> rget b i = Ok (bool_decide (i ∈ D)).
  Proof. intros [_ H] Hi. unfold rget. by rewrite H. Qed.

  Lemma knows_set b D i : knows b D -> i < N -> exists b', rset b i true = Ok b' /\ knows b' (D ++ [i]).
  Proof.
    intros [Hl H] Hi. exists (<[i := true]> b). unfold rset. rewrite H by done. split; [done|]. split; [by rewrite insert_length|].
    intros j Hj. destruct (decide (j = i)) as [->|Hne].
    - rewrite list_lookup_insert by lia. rewrite bool_decide_true; [done|]. rewrite elem_of_app, elem_of_list_singleton. auto.
    - rewrite list_lookup_insert_ne by done. rewrite H by done. f_equal. apply bool_decide_ext.
      rewrite elem_of_app, elem_of_list_singleton. tauto.
  Qed.

  Lemma knows_perm b D D' : D ≡ₚ D' -> knows b D -> knows b D'.
  Proof.
    intros Hp [Hl H]. split; [done|]. intros i Hi. rewrite H by done. f_equal. apply bool_decide_ext. by rewrite Hp.
  Qed.

  Lemma knows_nil : knows (replicate N false) [].
  Proof.
    split; [apply replicate_length|]. intros i Hi. rewrite lookup_replicate_2 by done. f_equal.
  Qed.
End known.

Section traverse.
  Context {W : Type} (g : graph W) (fl : flavour) (sr : search) (cap : option nat).
  Context (Hin : in_range g) (Hcap : roomy cap (length g)) (Hsr : search_ok sr).
  Implicit Types e : edge W.
  Implicit Types r : list (edge W).
  Local Notation N := (length g).

  (** *** The events, without the state *)

  Definition mark (pre : list nat) (n k dist : nat) (m : bool) e : event * bool :=
    match fl with
    | Directed => (First n k, m)
    | _ =>
        let lm := if tgt e =? n then loop_matched fl m dist e else (false, m) in
        (if bool_decide (tgt e ∈ pre) || lm.1 then Second n k else First n k, lm.2)
    end.

  Fixpoint marks (pre : list nat) (n : nat) r (ks : list nat) (dist : nat) (m : bool) : list event :=
    match ks with
    | [] => []
    | k :: ks =>
        match r !! k with
        | Some e => (mark pre n k dist m e).1 :: marks pre n r ks (S dist) (mark pre n k dist m e).2
        | None => []
        end
    end.

  Definition block (pre : list nat) (n : nat) : list event :=
    Before n :: marks pre n (row g n) (positions sr (row g n)) 0 true ++ [After n].

  Fixpoint tour (pre vs : list nat) : list event :=
    match vs with
    | [] => []
    | n :: vs => block pre n ++ tour (pre ++ [n]) vs
    end.

  Lemma tour_app pre vs vs' : tour pre (vs ++ vs') = tour pre vs ++ tour (pre ++ vs) vs'.
  Proof.
    revert pre. induction vs as [|n vs IH]; intros pre; simpl; [by rewrite app_nil_r|].
    rewrite IH, <- !app_assoc. done.
  Qed.

  (** *** The state *)

  Record good (s : tstate) (D P : list nat) : Prop := {
    good_disc : knows N (disc s) D;
    good_procd : knows N (procd s) P;
    good_num : num s = length D;
    good_nodup : NoDup D;
    good_lt : forall x, x ∈ D -> x < N
  }.

  Lemma good_emit s D P x : good s D P -> good (emit x s) D P.
  Proof. intros []; by split. Qed.

  Lemma register_ok s D P n :
    good s D P -> n < N -> n ∉ D ->
    exists s', register n s = Ok s' /\ good s' (D ++ [n]) P
      /\ frontier s' = frontier s /\ out s' = out s /\ restart s' = restart s /\ pops s' = pops s.
  Proof.
    intros [H1 H2 H3 H4 H5] Hn Hnot. destruct (knows_set N _ _ _ H1 Hn) as (d & Hd & Hk).
    unfold register. rewrite Hd. cbn [rbind]. eexists. split; [done|]. split; [|done].
    split; cbn; [done|done| | |].
    - rewrite app_length, H3. simpl. lia.
    - apply NoDup_app. split; [done|]. split; [|apply NoDup_singleton].
      intros x Hx Hx'%elem_of_list_singleton. by subst.
    - intros x [Hx| ->%elem_of_list_singleton]%elem_of_app; auto.
  Qed.

  Lemma push_ok s n : length (frontier s) < N ->
    push_node cap n s = Ok (TState (disc s) (procd s) (num s) (restart s) (frontier s ++ [n]) (pops s) (out s)).
  Proof.
    intros H. unfold push_node. unfold roomy in Hcap. destruct cap as [c|]; [|done].
    destruct (Nat.ltb_spec (length (frontier s)) c); [done|lia].
  Qed.

  Lemma classify_ok s D P n k dist m e :
    good s D P -> tgt e < N -> classify fl (procd s) n k dist m e = Ok (mark P n k dist m e).
  Proof.
    intros H Ht. unfold classify, mark. destruct fl; [done|..];
      rewrite (knows_get N _ _ _ (good_procd _ _ _ H) Ht); cbn [rbind]; done.
  Qed.

  (** *** One node *)

  Lemma edges_loop_ok s D P n r ks dist m :
    good s D P -> length (frontier s) < length D ->
    (forall k, k ∈ ks -> exists e, r !! k = Some e /\ tgt e < N) ->
    exists s' D', edges_loop fl cap n r ks dist m s = Ok s' /\ good s' (D ++ D') P
      /\ frontier s' = frontier s ++ D' /\ out s' = out s ++ marks P n r ks dist m
      /\ restart s' = restart s /\ pops s' = pops s
      /\ (forall k e, k ∈ ks -> r !! k = Some e -> tgt e ∈ D ++ D')
      /\ (forall x, x ∈ D' -> exists k e, k ∈ ks /\ r !! k = Some e /\ tgt e = x).
  Proof.
    revert s D dist m. induction ks as [|k ks IH]; intros s D dist m H Hf Hks; cbn [edges_loop marks].
    { exists s, []. rewrite !app_nil_r. split; [done|]. split; [done|]. split; [done|]. split; [done|]. split; [done|]. split; [done|].
      split; [intros ? ? Hk; by apply elem_of_nil in Hk|]. intros x Hx. by apply elem_of_nil in Hx. }
    destruct (Hks k) as (e & He & Ht); [left|]. rewrite He. unfold rget at 1. rewrite He. cbn [rbind].
    rewrite (classify_ok s D P n k dist m e H Ht). cbn [rbind].
    set (x := mark P n k dist m e). set (s1 := emit x.1 s).
    assert (H1 : good s1 D P) by by apply good_emit.
    rewrite (knows_get N _ _ _ (good_disc _ _ _ H1) Ht). cbn [rbind].
    assert (Hks' : forall k, k ∈ ks -> exists e, r !! k = Some e /\ tgt e < N) by (intros; apply Hks; by right).
    destruct (decide (tgt e ∈ D)) as [Hd|Hd].
    - rewrite bool_decide_true by done. cbn [rbind].
      destruct (IH s1 D (S dist) x.2 H1 Hf Hks') as (s' & D' & Hs & Hg & Hfr & Ho & Hr & Hp & Hc & Hb).
      exists s', D'. split; [done|]. split; [done|]. split; [done|]. split; [by rewrite Ho; cbn; rewrite <- app_assoc|].
      split; [done|]. split; [done|]. split.
      + intros k' e' Hk' He'. apply elem_of_cons in Hk' as [->|Hk']; [|by eapply Hc].
        assert (e' = e) as -> by congruence. apply elem_of_app. by left.
      + intros y Hy. destruct (Hb y Hy) as (k' & e' & ? & ? & ?). exists k', e'. split; [by right|done].
    - rewrite bool_decide_false by done.
      destruct (register_ok s1 D P (tgt e) H1 Ht Hd) as (s2 & Hs2 & H2 & Hf2 & Ho2 & Hr2 & Hp2). rewrite Hs2. cbn [rbind].
      pose proof (NoDup_bounded _ N (good_nodup _ _ _ H2) (good_lt _ _ _ H2)) as Hb2. rewrite app_length in Hb2. simpl in Hb2.
      rewrite push_ok by (rewrite Hf2; unfold s1; cbn; lia). cbn [rbind].
      set (s3 := TState _ _ _ _ _ _ _).
      assert (H3 : good s3 (D ++ [tgt e]) P) by (by destruct H2).
      destruct (IH s3 (D ++ [tgt e]) (S dist) x.2 H3) as (s' & D' & Hs & Hg & Hfr & Ho & Hr & Hp & Hc & Hb); [|done|].
      { unfold s3. cbn. rewrite Hf2, !app_length. unfold s1. cbn. lia. }
      exists s', (tgt e :: D'). rewrite <- app_assoc in Hg. split; [done|]. split; [done|].
      split. { rewrite Hfr. unfold s3. cbn. rewrite Hf2. unfold s1. cbn. by rewrite <- app_assoc. }
      split. { rewrite Ho. unfold s3. cbn. rewrite Ho2. unfold s1. cbn. by rewrite <- app_assoc. }
      split. { rewrite Hr. unfold s3. cbn. by rewrite Hr2. }
      split. { rewrite Hp. unfold s3. cbn. by rewrite Hp2. }
      split.
      + intros k' e' Hk' He'. apply elem_of_cons in Hk' as [->|Hk'].
        * assert (e' = e) as -> by congruence. apply elem_of_app. right. left.
        * specialize (Hc k' e' Hk' He'). by rewrite <- app_assoc in Hc.
      + intros y [->|Hy]%elem_of_cons; [exists k, e; split; [left|done]|].
        destruct (Hb y Hy) as (k' & e' & ? & ? & ?). exists k', e'. split; [by right|done].
  Qed.

  Lemma positions_elem r k : k ∈ positions sr r <-> k < length r.
  Proof.
    clear Hsr. unfold positions. destruct sr; rewrite ?elem_of_reverse, elem_of_list_In, in_seq; lia.
  Qed.

  Lemma pick_lt s : frontier s <> [] -> pick sr s < length (frontier s).
  Proof.
    intros H. unfold pick. unfold search_ok in Hsr. destruct (frontier s) as [|x f] eqn:E; [done|].
    destruct sr; simpl; [lia|lia|]. by apply (Hsr (pops s) (x :: f)).
  Qed.

  (** Taking a node from the frontier and visiting it. *)
  Lemma step_ok s D P :
    good s D P -> D ≡ₚ P ++ frontier s -> frontier s <> [] ->
    exists s0 s' n D', pop_node sr s = Ok (n, s0) /\ inner_loop fl sr cap g n s0 = Ok s'
      /\ frontier s !! pick sr s = Some n
      /\ good s' (D ++ D') (P ++ [n])
      /\ frontier s' = (take (pick sr s) (frontier s) ++ drop (S (pick sr s)) (frontier s)) ++ D'
      /\ n < N /\ n ∉ P
      /\ out s' = out s ++ block P n /\ restart s' = restart s
      /\ (forall e, e ∈ row g n -> tgt e ∈ D ++ D')
      /\ (forall x, x ∈ D' -> exists e, e ∈ row g n /\ tgt e = x).
  Proof.
    intros H Hp Hf. pose proof (pick_lt s Hf) as Hj. set (j := pick sr s) in *.
    destruct (lookup_in_range _ _ Hj) as [n Hn].
    assert (Hnf : n ∈ frontier s) by by eapply elem_of_list_lookup_2.
    assert (HnD : n ∈ D) by (rewrite Hp; apply elem_of_app; by right).
    assert (HnN : n < N) by by apply (good_lt _ _ _ H).
    assert (HnP : n ∉ P).
    { pose proof (good_nodup _ _ _ H) as Hd. rewrite Hp in Hd. apply NoDup_app in Hd as (_ & Hd & _). intros HP. by apply (Hd n). }
    unfold pop_node. fold j. unfold rget at 1. rewrite Hn. cbn [rbind]. cbn [fst snd].
    set (s0 := TState _ _ _ _ _ _ _).
    assert (H0 : good (emit (Before n) s0) D P) by (apply good_emit; by destruct H).
    assert (Hlen : length (take j (frontier s) ++ drop (S j) (frontier s)) = length (frontier s) - 1).
    { rewrite app_length, take_length, drop_length. lia. }
    destruct (edges_loop_ok (emit (Before n) s0) D P n (row g n) (positions sr (row g n)) 0 true H0)
      as (s1 & D' & Hs1 & H1 & Hf1 & Ho1 & Hr1 & _ & Hc & Hb).
    { cbn. rewrite Hlen. assert (length D = length P + length (frontier s)) by (rewrite Hp, app_length; lia). lia. }
    { intros k Hk%positions_elem. destruct (lookup_in_range _ _ Hk) as [e He]. exists e. split; [done|].
      apply (Hin n). by eapply elem_of_list_lookup_2. }
    destruct (knows_set N _ _ n (good_procd _ _ _ H1) HnN) as (p & Hset & Hkp).
    assert (Hinner : inner_loop fl sr cap g n s0
      = Ok (TState (disc s1) p (num s1) (restart s1) (frontier s1) (pops s1) (out s1 ++ [After n]))).
    { unfold inner_loop. destruct (Nat.ltb_spec n N); [|lia]. rewrite rget_row by done. cbn [rbind].
      rewrite Hs1. cbn [rbind procd emit]. rewrite Hset. done. }
    eexists s0, _, n, D'. split; [done|]. split; [exact Hinner|]. split; [done|].
    split. { destruct H1. split; done. }
    split; [done|]. split; [done|]. split; [done|].
    split. { cbn. rewrite Ho1. cbn. unfold block. rewrite <- !app_assoc. done. }
    split; [by cbn; rewrite Hr1|]. split.
    - intros e He. apply elem_of_list_lookup in He as [k Hk]. apply (Hc k e); [|done]. apply positions_elem. by apply lookup_lt_Some in Hk.
    - intros x Hx. destruct (Hb x Hx) as (k & e & _ & Hk & Ht). exists e. split; [by eapply elem_of_list_lookup_2|done].
  Qed.

  (** *** A search *)

  Definition closed (P D : list nat) : Prop := forall u e, u ∈ P -> e ∈ row g u -> tgt e ∈ D.

  Lemma reaches_step u v e : reaches g u v -> e ∈ row g v -> reaches g u (tgt e).
  Proof. intros [d Hd] He. exists (S d). by eapply path_step. Qed.

  Lemma take_out_perm {A} (l : list A) j x : l !! j = Some x -> l ≡ₚ x :: take j l ++ drop (S j) l.
  Proof.
    intros H. rewrite <- (take_drop_middle l j x H) at 1. by rewrite Permutation_middle.
  Qed.

  Lemma drain_ok fuel s D P :
    good s D P -> D ≡ₚ P ++ frontier s -> closed P D -> N <= length P + fuel ->
    exists s' P', drain fuel fl sr cap g s = Ok s' /\ good s' (P ++ P') (P ++ P') /\ frontier s' = []
      /\ out s' = out s ++ tour P P' /\ restart s' = restart s
      /\ closed (P ++ P') (P ++ P')
      /\ (forall x, x ∈ D -> x ∈ P ++ P')
      /\ (forall x, x ∈ P' -> exists y, y ∈ frontier s /\ reaches g y x)
      /\ (frontier s <> [] -> P' <> [])
      /\ (forall x, frontier s = [x] -> exists P'', P' = x :: P'').
  Proof.
    revert s D P. induction fuel as [|fuel IH]; intros s D P H Hp Hc Hfuel.
    - assert (Hf : frontier s = []).
      { pose proof (NoDup_bounded _ N (good_nodup _ _ _ H) (good_lt _ _ _ H)) as Hl. rewrite Hp, app_length in Hl.
        destruct (frontier s); [done|simpl in Hl; lia]. }
      cbn [drain]. rewrite Hf in *. exists s, []. rewrite app_nil_r in *. split; [done|]. split.
      { split; try (by destruct H). - eapply knows_perm; [exact Hp|by destruct H]. - rewrite (good_num _ _ _ H). by rewrite Hp.
        - rewrite <- Hp. by destruct H. - intros x Hx. apply (good_lt _ _ _ H). by rewrite Hp. }
      split; [done|]. split; [by simpl; rewrite app_nil_r|]. split; [done|].
      split. { intros u e Hu He. rewrite <- Hp. by eapply Hc. } split; [intros x; by rewrite Hp|].
      split; [intros x Hx; by apply elem_of_nil in Hx|]. done.
    - destruct (frontier s) as [|y f] eqn:Hf.
      { cbn [drain]. rewrite Hf in *. exists s, []. rewrite app_nil_r in *. split; [done|]. split.
        { split; try (by destruct H). - eapply knows_perm; [exact Hp|by destruct H]. - rewrite (good_num _ _ _ H). by rewrite Hp.
          - rewrite <- Hp. by destruct H. - intros x Hx. apply (good_lt _ _ _ H). by rewrite Hp. }
        split; [done|]. split; [by simpl; rewrite app_nil_r|]. split; [done|].
        split. { intros u e Hu He. rewrite <- Hp. by eapply Hc. } split; [intros x; by rewrite Hp|].
        split; [intros x Hx; by apply elem_of_nil in Hx|]. done. }
      rewrite <- Hf in Hp. assert (Hne : frontier s <> []) by by rewrite Hf.
      destruct (step_ok s D P H Hp Hne) as (s0 & s1 & n & D' & Hpop & Hin1 & Hn & H1 & Hf1 & HnN & HnP & Ho1 & Hr1 & Ht1 & Hb1).
      cbn [drain]. rewrite Hf. rewrite Hpop. cbn [rbind fst snd]. rewrite Hin1. cbn [rbind].
      assert (Hp1 : D ++ D' ≡ₚ (P ++ [n]) ++ frontier s1).
      { rewrite Hf1, Hp, <- !app_assoc. apply Permutation_app_head.
        etrans; [apply Permutation_app_tail, (take_out_perm (frontier s) (pick sr s) n Hn)|]. cbn [app]. by rewrite <- app_assoc. }
      assert (Hc1 : closed (P ++ [n]) (D ++ D')).
      { intros u e [Hu| ->%elem_of_list_singleton]%elem_of_app He; [|by apply Ht1].
        apply elem_of_app. left. by eapply Hc. }
      destruct (IH s1 (D ++ D') (P ++ [n]) H1 Hp1 Hc1) as (s' & P' & Hs & Hg & Hfr & Ho & Hr & Hcl & Hsub & Hre & _ & _).
      { rewrite app_length. simpl. lia. }
      exists s', (n :: P'). rewrite <- app_assoc in Hg, Hcl, Hsub. cbn [app] in Hg, Hcl, Hsub. split; [done|]. split; [done|]. split; [done|].
      split. { rewrite Ho, Ho1. cbn [tour]. by rewrite <- app_assoc. }
      split; [congruence|]. split; [done|].
      split. { intros x Hx. apply Hsub. apply elem_of_app. by left. }
      assert (Hnf : n ∈ y :: f). { rewrite <- Hf. by eapply elem_of_list_lookup_2. }
      split; [|split].
      + intros x Hx. apply elem_of_cons in Hx as [->|Hx]; [exists n; split; [done|exists 0; constructor]|].
        destruct (Hre x Hx) as (z & Hz & Hrz). rewrite Hf1 in Hz. apply elem_of_app in Hz as [Hz|Hz].
        * exists z. split; [|done]. rewrite <- Hf. rewrite (take_out_perm (frontier s) (pick sr s) n Hn). by right.
        * destruct (Hb1 z Hz) as (e & He & <-). exists n. split; [done|].
          destruct Hrz as [d Hd]. clear - He Hd. induction Hd as [|v e' d Hd [d' IHd] He'].
          -- exists 1. eapply path_step; [constructor|done].
          -- exists (S d'). eapply path_step; done.
      + done.
      + intros x Hx. injection Hx as -> ->. apply elem_of_list_singleton in Hnf as ->. by exists P'.
  Qed.

  Lemma skip_ok fuel b D i :
    knows N b D -> (forall j, j < i -> j ∈ D) -> (exists x, x < N /\ x ∉ D) -> N < i + fuel ->
    exists i', skip_discovered fuel b i = Ok i' /\ i' < N /\ i' ∉ D /\ forall j, j < i' -> j ∈ D.
  Proof.
    intros Hb. revert i. induction fuel as [|fuel IH]; intros i Hi Hx Hf.
    - exfalso. destruct Hx as (x & Hx & Hn). apply Hn, Hi. lia.
    - assert (HiN : i < N). { destruct Hx as (x & Hx & Hn). destruct (decide (x < i)); [by apply Hi in l|lia]. }
      cbn [skip_discovered]. rewrite (knows_get N _ _ _ Hb HiN). cbn [rbind].
      destruct (decide (i ∈ D)) as [Hd|Hd].
      + rewrite bool_decide_true by done. apply IH; [|done|lia]. intros j Hj. destruct (decide (j = i)) as [->|]; [done|]. apply Hi. lia.
      + rewrite bool_decide_false by done. by exists i.
  Qed.

  Context (find_all : bool) (start : nat).

  (** What is known between two searches, when [P] have been visited. *)
  Record between (s : tstate) (P : list nat) : Prop := {
    bt_good : good s P P;
    bt_frontier : frontier s = [];
    bt_closed : closed P P;
    bt_restart : forall j, j < restart s -> j ∈ P
  }.

  Lemma next_start_ok s P :
    between s P -> length P < N -> start < N -> (find_all = false -> P = []) ->
    exists i s', next_start find_all start s = Ok (i, s') /\ i < N /\ i ∉ P /\ between s' P /\ out s' = out s
      /\ (P = [] -> i = start).
  Proof.
    intros H Hl Hs Hone. unfold next_start. destruct (decide (P = [])) as [->|HP].
    - rewrite (good_num _ _ _ (bt_good _ _ H)). rewrite andb_false_r. exists start, s.
      split; [done|]. split; [done|]. split; [apply not_elem_of_nil|]. done.
    - assert (find_all = true) as -> by (destruct find_all; [done|]; exfalso; by apply HP, Hone).
      rewrite (good_num _ _ _ (bt_good _ _ H)). destruct (Nat.eqb_spec (length P) 0) as [E|_]; [by apply nil_length_inv in E|]. cbn [andb negb].
      destruct (skip_ok (S (length (disc s) - restart s)) (disc s) P (restart s)) as (i & Hi & H1 & H2 & H3).
      + apply (good_disc _ _ _ (bt_good _ _ H)).
      + apply (bt_restart _ _ H).
      + destruct (decide (Forall (fun x => x ∈ P) (seq 0 N))) as [Hall|Hnot].
        * exfalso. assert (length (seq 0 N) <= length P); [|rewrite seq_length in *; lia].
          apply submseteq_length, NoDup_submseteq; [apply NoDup_ListNoDup, seq_NoDup|]. by apply Forall_forall.
        * apply not_Forall_Exists in Hnot; [|apply _]. apply Exists_exists in Hnot as (x & Hx & Hnx).
          apply elem_of_list_In, in_seq in Hx. exists x. split; [lia|done].
      + destruct (good_disc _ _ _ (bt_good _ _ H)) as [-> _]. lia.
      + rewrite Hi. cbn [rbind]. eexists i, _. split; [done|]. split; [done|]. split; [done|]. split; [|done].
        destruct H as [Hg Hf Hc Hr]. split; cbn; [by destruct Hg|done|done|done].
  Qed.

  Lemma one_search s P i :
    between s P -> i < N -> i ∉ P ->
    exists s1 s2 s3 P', push_node cap i s = Ok s1 /\ register i s1 = Ok s2 /\ drain N fl sr cap g s2 = Ok s3
      /\ good s2 (P ++ [i]) P /\ frontier s2 = [i]
      /\ between s3 (P ++ i :: P') /\ out s3 = out s ++ tour P (i :: P')
      /\ (forall x, x ∈ i :: P' -> reaches g i x).
  Proof.
    intros H Hi Hn. eexists. rewrite push_ok by (rewrite (bt_frontier _ _ H); simpl; lia).
    set (s1 := TState _ _ _ _ _ _ _). assert (H1 : good s1 P P) by (destruct H as [[]]; by split).
    destruct (register_ok s1 P P i H1 Hi Hn) as (s2 & Hs2 & H2 & Hf2 & Ho2 & Hr2 & _).
    assert (Hf : frontier s2 = [i]). { rewrite Hf2. unfold s1. cbn. by rewrite (bt_frontier _ _ H). }
    destruct (drain_ok N s2 (P ++ [i]) P H2) as (s3 & P' & Hs3 & H3 & Hf3 & Ho3 & Hr3 & Hc3 & Hsub & Hre & Hne & Hhd).
    - by rewrite Hf.
    - intros u e Hu He. apply elem_of_app. left. by eapply (bt_closed _ _ H).
    - lia.
    - destruct (Hhd i Hf) as [P'' ->].
      exists s2, s3, P''. split; [done|]. split; [done|]. split; [done|]. split; [done|]. split; [done|].
      split; [|split].
      + split; [done|done|done|]. intros j Hj. apply elem_of_app. left. rewrite Hr3, Hr2 in Hj. by apply (bt_restart _ _ H).
      + by rewrite Ho3, Ho2.
      + intros x Hx. destruct (Hre x Hx) as (y & Hy & Hr). rewrite Hf in Hy. apply elem_of_list_singleton in Hy as ->. done.
  Qed.

  Lemma searches_ok fuel s P :
    between s P -> length P < N -> start < N -> (find_all = false -> P = []) -> N <= length P + fuel ->
    exists s' P', searches fuel fl sr cap find_all start g s = Ok s' /\ between s' (P ++ P')
      /\ out s' = out s ++ tour P P' /\ (find_all = true -> length (P ++ P') = N)
      /\ (P = [] -> head P' = Some start) /\ (find_all = false -> forall x, x ∈ P' -> reaches g start x).
  Proof.
    revert s P. induction fuel as [|fuel IH]; intros s P H Hl Hs Hone Hfuel; [lia|]. cbn [searches].
    destruct (next_start_ok s P H Hl Hs Hone) as (i & s0 & Hn & Hi & Hni & H0 & Ho0 & Hhd). rewrite Hn. cbn [rbind fst snd].
    destruct (one_search s0 P i H0 Hi Hni) as (s1 & s2 & s3 & P' & Hs1 & Hs2 & Hs3 & _ & _ & H3 & Ho3 & Hre).
    rewrite Hs1. cbn [rbind]. rewrite Hs2. cbn [rbind]. rewrite Hs3. cbn [rbind].
    rewrite (good_num _ _ _ (bt_good _ _ H3)).
    destruct (negb find_all || (length (P ++ i :: P') =? N)) eqn:Hterm.
    - exists s3, (i :: P'). split; [done|]. split; [done|]. split; [by rewrite Ho3, Ho0|]. split; [|split].
      + intros ->. simpl in Hterm. by apply Nat.eqb_eq.
      + intros HP. simpl. f_equal. by apply Hhd.
      + intros Hfa. rewrite Hhd in Hre by by apply Hone. rewrite Hhd by by apply Hone. done.
    - apply orb_false_iff in Hterm as [Hfa Hlen]. apply negb_false_iff in Hfa. apply Nat.eqb_neq in Hlen.
      destruct (IH s3 (P ++ i :: P') H3) as (s' & P'' & Hs' & H' & Ho' & Hall & _ & _); [|done|congruence| |].
      + pose proof (NoDup_bounded _ N (good_nodup _ _ _ (bt_good _ _ H3)) (good_lt _ _ _ (bt_good _ _ H3))). lia.
      + rewrite app_length. simpl. lia.
      + exists s', (i :: P' ++ P''). rewrite <- app_assoc in H', Hall. cbn [app] in H', Hall. split; [done|]. split; [done|]. split; [|split; [done|split]].
        * rewrite Ho', Ho3, Ho0, <- app_assoc. f_equal. change (i :: P' ++ P'') with ((i :: P') ++ P''). by rewrite tour_app.
        * intros HP. simpl. f_equal. by apply Hhd.
        * intros Hfa'. congruence.
  Qed.

  Lemma reaches_closed P u v : closed P P -> u ∈ P -> reaches g u v -> v ∈ P.
  Proof. intros Hc Hu [d Hd]. induction Hd as [|v e d Hd IH He]; [done|]. by eapply Hc. Qed.

  Lemma traverse_tour :
    start < N ->
    exists vs, traverse fl sr cap find_all start g = Ok (tour [] vs) /\ NoDup vs /\ head vs = Some start
      /\ (forall n, n ∈ vs <-> wanted g find_all start n) /\ (forall n, n ∈ vs -> n < N) /\ closed vs vs.
  Proof.
    intros Hs. destruct (searches_ok N (start_state g) []) as (s' & P & Hs' & H' & Ho & Hall & Hhd & Hre); [|simpl; lia|done|done|simpl; lia|].
    - split; [|done| |]; cbn.
      + split; cbn; [apply knows_nil|apply knows_nil|done|constructor|]. intros x Hx. by apply elem_of_nil in Hx.
      + intros u e Hu. by apply elem_of_nil in Hu.
      + lia.
    - exists P. unfold traverse. destruct (Nat.ltb_spec start N); [|lia]. rewrite Hs'. cbn [rbind]. rewrite Ho. cbn [app start_state out].
      cbn [app] in H'. destruct H' as [Hg _ Hc _]. specialize (Hhd eq_refl).
      split; [done|]. split; [by destruct Hg|]. split; [done|]. split; [|split; [by destruct Hg|done]].
      intros n. unfold wanted. destruct find_all.
      + split; [by apply (good_lt _ _ _ Hg)|]. intros Hn. apply (NoDup_full P N n); [by destruct Hg..|by apply Hall|done].
      + split; [by apply Hre|]. apply reaches_closed; [done|]. destruct P; [done|]. injection Hhd as ->. left.
  Qed.
End traverse.
