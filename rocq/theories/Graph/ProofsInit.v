From stdpp Require Import list.
From Verif.Base Require Import Outcome Order ListLemmas.
From Verif.Algo Require Spec ProofsStable ProofsCluster.
From Verif.Graph Require Import Model ModelShared ModelInit Spec SpecInit ProofsBase ProofsPartial ProofsCount.
Local Open Scope res_scope.

(** *** Prefixes *)
Section prefix.
  Context {A : Type}.
  Implicit Types (p : A -> bool) (l : list A).

  Lemma prefix_len_le p l : prefix_len p l <= length l.
  Proof. induction l as [|x l IH]; [done|]. simpl. destruct (p x); simpl; lia. Qed.

  Lemma prefix_len_lt p l i x : i < prefix_len p l -> l !! i = Some x -> p x = true.
  Proof.
    revert i. induction l as [|y l IH]; intros i; [simpl; lia|]. simpl. destruct (p y) eqn:E; [|lia].
    intros Hi Hx. destruct i as [|i]; [by injection Hx as ->|]. apply (IH i); [lia|done].
  Qed.

  Lemma prefix_len_at p l x : l !! prefix_len p l = Some x -> p x = false.
  Proof. induction l as [|y l IH]; [done|]. simpl. destruct (p y) eqn:E; [done|]. by intros [= ->]. Qed.

  Lemma prefix_len_all p l : (forall i x, l !! i = Some x -> p x = true) -> prefix_len p l = length l.
  Proof.
    induction l as [|x l IH]; intros H; [done|]. simpl. rewrite (H 0 x) by done. f_equal. apply IH.
    intros i y Hy. by apply (H (S i)).
  Qed.

  Lemma prefix_len_ext p p' l : (forall x, x ∈ l -> p x = p' x) -> prefix_len p l = prefix_len p' l.
  Proof.
    induction l as [|x l IH]; intros H; [done|]. simpl. rewrite (H x) by left. destruct (p' x); [|done].
    f_equal. apply IH. intros y Hy. apply H. by right.
  Qed.
End prefix.

Section init.
  Context {W : Type} `{!EqDecision W}.
  Implicit Types e x : edge W.
  Implicit Types r : list (edge W).
  Implicit Types m : wmode W.

  Definition same e1 e2 : Prop := tgt e1 = tgt e2 /\ wt e1 = wt e2.

  Lemma same_edge_iff e1 e2 : same_edge e1 e2 = true <-> same e1 e2.
  Proof. unfold same_edge, same. rewrite andb_true_iff, Nat.eqb_eq, bool_decide_eq_true. done. Qed.

  (** Equal edges are next to each other. *)
  Definition arranged r : Prop :=
    forall a b c x y z, a < b -> b < c -> r !! a = Some x -> r !! b = Some y -> r !! c = Some z ->
      same x z -> same x y.

  Lemma arranged_drop n r : arranged r -> arranged (drop n r).
  Proof.
    intros H a b c x y z Hab Hbc Hx Hy Hz. rewrite lookup_drop in *. apply (H (n + a) (n + b) (n + c)); auto; lia.
  Qed.

  Lemma sorted_drop (lt : edge W -> edge W -> bool) n r : sorted_by lt r -> sorted_by lt (drop n r).
  Proof. intros H i j x y Hij Hx Hy. rewrite lookup_drop in *. apply (H (n + i) (n + j)); auto; lia. Qed.

  Lemma arranged_take n r : arranged r -> arranged (take n r).
  Proof.
    intros H a b c x y z Hab Hbc Hx Hy Hz.
    apply lookup_take_Some in Hx as [Hx _], Hy as [Hy _], Hz as [Hz _]. by apply (H a b c).
  Qed.

  Lemma mode_cases m : m = Unordered \/ m <> Unordered.
  Proof. destruct m; [by right|by left|by right]. Qed.

  (** *** The order of edges *)

  Lemma edge_lt_sw m : mode_ok m -> strict_weak (edge_lt m).
  Proof.
    intros Hm. destruct m as [lt| |].
    - destruct Hm as [H _]. split; cbn [edge_lt].
      + intros x. rewrite Nat.eqb_refl. apply (sw_irrefl lt H).
      + intros x y z. destruct (Nat.eqb_spec (tgt x) (tgt y)), (Nat.eqb_spec (tgt y) (tgt z)), (Nat.eqb_spec (tgt x) (tgt z));
          try lia. apply (sw_trans lt H).
      + intros x y z. destruct (Nat.eqb_spec (tgt x) (tgt y)), (Nat.eqb_spec (tgt y) (tgt x)); try lia;
          destruct (Nat.eqb_spec (tgt y) (tgt z)), (Nat.eqb_spec (tgt z) (tgt y)); try lia;
          destruct (Nat.eqb_spec (tgt x) (tgt z)), (Nat.eqb_spec (tgt z) (tgt x)); try lia.
        apply (sw_incomp lt H).
    - split; cbn [edge_lt]; intros; lia.
    - split; cbn [edge_lt]; intros; lia.
  Qed.

  Lemma tied_target m x e : edge_lt m x e = false -> edge_lt m e x = false -> tgt e = tgt x.
  Proof.
    destruct m; cbn [edge_lt]; [|lia..]. destruct (Nat.eqb_spec (tgt x) (tgt e)), (Nat.eqb_spec (tgt e) (tgt x)); lia.
  Qed.

  Lemma tied_same m x e : mode_ok m -> m <> Unordered -> edge_lt m x e = false -> edge_lt m e x = false -> same e x.
  Proof.
    intros Hm Hn H1 H2. pose proof (tied_target m x e H1 H2) as Ht. split; [done|].
    destruct m; [|done|apply Hm]. cbn [edge_lt] in *. rewrite Ht, Nat.eqb_refl in *. by apply Hm.
  Qed.

  Lemma same_lt_l m x e y : same x e -> edge_lt m x y = edge_lt m e y.
  Proof. intros [Ht Hw]. destruct m; cbn [edge_lt]; rewrite Ht; try rewrite Hw; done. Qed.
  Lemma same_lt_r m x e y : same x e -> edge_lt m y x = edge_lt m y e.
  Proof. intros [Ht Hw]. destruct m; cbn [edge_lt]; rewrite Ht; try rewrite Hw; done. Qed.
  Lemma same_not_lt m x e : mode_ok m -> same x e -> edge_lt m x e = false.
  Proof. intros Hm H. rewrite (same_lt_l m x e e H). apply (sw_irrefl _ (edge_lt_sw m Hm)). Qed.
  Lemma same_sym x e : same x e -> same e x.
  Proof. intros [H1 H2]. split; congruence. Qed.
  Lemma same_trans x y z : same x y -> same y z -> same x z.
  Proof. intros [H1 H2] [H3 H4]. split; congruence. Qed.

  (** *** Counting equal edges *)

  Lemma hits_all j w r : (forall i e, r !! i = Some e -> tgt e = j /\ wt e = w) -> hits j w r = length r.
  Proof.
    induction r as [|e r IH]; intros H; [done|]. rewrite hits_cons. unfold hit.
    rewrite decide_True by (by apply (H 0)). simpl. rewrite IH; [done|]. intros i e' He'. by apply (H (S i)).
  Qed.
  Lemma hits_none j w r : (forall i e, r !! i = Some e -> ~ (tgt e = j /\ wt e = w)) -> hits j w r = 0.
  Proof.
    intros H. destruct (hits j w r) eqn:E; [done|].
    destruct (hits_pos j w r) as (k & e & He & ?); [lia|]. by destruct (H k e He).
  Qed.

  (** The run of edges equal to the first one. *)
  Lemma run_facts x r :
    arranged (x :: r) ->
    let n := prefix_len (fun e => same_edge e x) (x :: r) in
    0 < n /\ n <= length (x :: r)
    /\ (forall i e, take n (x :: r) !! i = Some e -> same e x)
    /\ (forall i e, drop n (x :: r) !! i = Some e -> ~ same e x)
    /\ n = hits (tgt x) (wt x) (x :: r).
  Proof.
    intros Ha n. assert (H0 : 0 < n).
    { unfold n. simpl. destruct (same_edge x x) eqn:E; [lia|].
      assert (same_edge x x = true) by (apply same_edge_iff; done). congruence. }
    assert (Hle : n <= length (x :: r)) by apply prefix_len_le.
    assert (Ht : forall i e, take n (x :: r) !! i = Some e -> same e x).
    { intros i e [He Hi]%lookup_take_Some. apply same_edge_iff.
      by apply (prefix_len_lt (fun e => same_edge e x) (x :: r) i). }
    assert (Hd : forall i e, drop n (x :: r) !! i = Some e -> ~ same e x).
    { intros i e He Hs. rewrite lookup_drop in He.
      destruct (lookup_in_range (x :: r) n) as [z Hz]; [apply lookup_lt_Some in He; lia|].
      pose proof (prefix_len_at (fun e => same_edge e x) _ _ Hz) as Hf.
      assert (same_edge z x = true); [|congruence]. apply same_edge_iff. destruct i as [|i].
      - rewrite Nat.add_0_r in He. congruence.
      - apply same_sym. apply (Ha 0 n (n + S i) x z e); auto; [lia|]. by apply same_sym. }
    split; [done|]. split; [done|]. split; [done|]. split; [done|].
    rewrite <- (take_drop n (x :: r)). rewrite hits_app.
    rewrite hits_all, take_length; [rewrite hits_none; [lia|]|].
    - intros i e He Hs. by apply (Hd i e He).
    - intros i e He. by apply (Ht i e).
  Qed.

  Lemma group_run m x r :
    mode_ok m -> sorted_by (edge_lt m) (x :: r) ->
    group_len m x (x :: r) = prefix_len (fun e => same_edge e x) (x :: r).
  Proof.
    intros Hm Hs. assert (Hle : forall e, e ∈ x :: r -> edge_lt m e x = false).
    { intros e [i He]%elem_of_list_lookup. destruct i as [|i].
      - injection He as <-. apply (sw_irrefl _ (edge_lt_sw m Hm)).
      - apply (Hs 0 (S i)); [lia|done|done]. }
    unfold group_len. destruct (mode_cases m) as [->|Hu].
    - set (n := prefix_len _ (x :: r)). assert (Hn : 0 < n).
      { unfold n. simpl. rewrite Nat.ltb_irrefl. simpl. lia. }
      unfold find_cluster_end. destruct (take n (x :: r)) as [|y l] eqn:E.
      { destruct n; [lia|done]. }
      assert (y = x) as ->. { destruct n; [lia|]. by injection E. }
      rewrite <- E. clear E l. revert n Hn.
      (* edges after the n-th have other targets *)
      intros n Hn.
      assert (Hd : forall i e, i >= n -> (x :: r) !! i = Some e -> same_edge e x = false).
      { intros i e Hi He. destruct (same_edge e x) eqn:Hse; [|done]. apply same_edge_iff in Hse as [Ht _].
        destruct (lookup_in_range (x :: r) n) as [z Hz]; [apply lookup_lt_Some in He; lia|].
        pose proof (prefix_len_at _ _ _ Hz) as Hf. cbn [edge_lt] in Hf.
        assert (tgt z <= tgt e); [|lia]. destruct (decide (i = n)) as [->|]; [replace z with e by congruence; lia|].
        pose proof (Hs n i z e ltac:(lia) Hz He) as Hze. cbn [edge_lt] in Hze. lia. }
      clearbody n. clear Hs Hle Hm Hn. revert n Hd. generalize (x :: r). clear r. intros r.
      induction r as [|e r IH]; intros n Hd; [by rewrite take_nil|]. destruct n as [|n].
      + simpl. by rewrite (Hd 0 e) by (done || lia).
      + simpl. destruct (same_edge e x); [|done]. f_equal. apply IH. intros i e' Hi He'. apply (Hd (S i)); [lia|done].
    - assert (Heq : prefix_len (fun e => negb (edge_lt m x e)) (x :: r) = prefix_len (fun e => same_edge e x) (x :: r)).
      { apply prefix_len_ext. intros e He. apply Hle in He. destruct (edge_lt m x e) eqn:Hlt; simpl.
        - destruct (same_edge e x) eqn:Hse; [|done]. apply same_edge_iff, same_sym in Hse.
          rewrite (same_not_lt m x e Hm Hse) in Hlt. done.
        - symmetry. apply same_edge_iff. by apply (tied_same m). }
      destruct m; [exact Heq|done|exact Heq].
  Qed.

  (** The edges of a row matching a given one. *)
  Lemma matching_facts m x r :
    mode_ok m -> sorted_by (edge_lt m) r -> arranged r ->
    let p := matching m x r in
    p.2 = hits (tgt x) (wt x) r
    /\ p.1 + p.2 <= length r
    /\ (forall i e, p.1 <= i < p.1 + p.2 -> r !! i = Some e -> same e x)
    /\ (forall i e, i < p.1 \/ p.1 + p.2 <= i -> r !! i = Some e -> ~ same e x).
  Proof.
    intros Hm Hs Ha. pose proof (edge_lt_sw m Hm) as Hsw. unfold matching.
    set (lo := prefix_len (fun e => edge_lt m e x) r). set (hi := prefix_len (fun e => negb (edge_lt m x e)) r).
    assert (Hlo : forall i e, i < lo -> r !! i = Some e -> edge_lt m e x = true).
    { intros i e Hi He. by apply (prefix_len_lt (fun e => edge_lt m e x) r i). }
    assert (Hlo' : forall i e, lo <= i -> r !! i = Some e -> edge_lt m e x = false).
    { intros i e Hi He. destruct (lookup_in_range r lo) as [z Hz]; [apply lookup_lt_Some in He; lia|].
      pose proof (prefix_len_at _ _ _ Hz) as Hf. destruct (decide (i = lo)) as [->|]; [replace e with z by congruence; done|].
      pose proof (Hs lo i z e ltac:(lia) Hz He) as Hze. exact (sw_neg_trans _ Hsw x z e Hf Hze). }
    assert (Hhi : forall i e, i < hi -> r !! i = Some e -> edge_lt m x e = false).
    { intros i e Hi He. pose proof (prefix_len_lt (fun e => negb (edge_lt m x e)) r i e Hi He) as Hf. cbn beta in Hf. by destruct (edge_lt m x e). }
    assert (Hhi' : forall i e, hi <= i -> r !! i = Some e -> edge_lt m x e = true).
    { intros i e Hi He. destruct (lookup_in_range r hi) as [z Hz]; [apply lookup_lt_Some in He; lia|].
      pose proof (prefix_len_at _ _ _ Hz) as Hf. cbn beta in Hf. assert (Hxz : edge_lt m x z = true) by (by destruct (edge_lt m x z)).
      destruct (decide (i = hi)) as [->|]; [replace e with z by congruence; done|].
      pose proof (Hs hi i z e ltac:(lia) Hz He) as Hze. exact (sw_lt_le_trans _ Hsw x z e Hxz Hze). }
    assert (Hlohi : lo <= hi).
    { destruct (decide (lo <= hi)); [done|]. destruct (lookup_in_range r hi) as [z Hz].
      { pose proof (prefix_len_le (fun e => edge_lt m e x) r). fold lo in H. lia. }
      pose proof (Hlo hi z ltac:(lia) Hz) as H1. pose proof (Hhi' hi z ltac:(lia) Hz) as H2.
      rewrite (sw_asym _ Hsw _ _ H2) in H1. done. }
    assert (Hhil : hi <= length r) by apply prefix_len_le.
    clearbody lo hi.
    assert (Hmain : forall s c, lo <= s -> s + c <= hi ->
      (forall i e, s <= i < s + c -> r !! i = Some e -> same e x) ->
      (forall i e, lo <= i < hi -> i < s \/ s + c <= i -> r !! i = Some e -> ~ same e x) ->
      c = hits (tgt x) (wt x) r /\ s + c <= length r
      /\ (forall i e, s <= i < s + c -> r !! i = Some e -> same e x)
      /\ (forall i e, i < s \/ s + c <= i -> r !! i = Some e -> ~ same e x)).
    { intros s c Hsl Hsh Hin Hout.
      assert (Hout' : forall i e, i < s \/ s + c <= i -> r !! i = Some e -> ~ same e x).
      { intros i e Hi He Hse. destruct (decide (i < lo)).
        - pose proof (Hlo i e ltac:(lia) He) as H1. rewrite (same_not_lt m e x Hm Hse) in H1. done.
        - destruct (decide (hi <= i)).
          + pose proof (Hhi' i e ltac:(lia) He) as H1. rewrite (same_not_lt m x e Hm (same_sym _ _ Hse)) in H1. done.
          + exact (Hout i e ltac:(lia) Hi He Hse). }
      split; [|split; [lia|done]].
      rewrite <- (take_drop s r) at 1. rewrite hits_app. rewrite <- (take_drop c (drop s r)), hits_app.
      rewrite hits_none. 2:{ intros i e [He Hi]%lookup_take_Some. intros H. by apply (Hout' i e (or_introl Hi) He). }
      rewrite hits_all. 2:{ intros i e [He Hi]%lookup_take_Some. rewrite lookup_drop in He. apply (Hin (s + i) e); [lia|done]. }
      rewrite hits_none. 2:{ intros i e He. rewrite drop_drop, lookup_drop in He. apply (Hout' (s + c + i) e); [lia|done]. }
      rewrite take_length, drop_length. lia. }
    destruct (mode_cases m) as [->|Hu].
    - set (l := drop lo (take hi r)).
      assert (Hl : forall i, i < hi - lo -> l !! i = r !! (lo + i)).
      { intros i Hi. unfold l. rewrite lookup_drop. apply lookup_take. lia. }
      assert (Hll : length l = hi - lo) by (unfold l; rewrite drop_length, take_length; lia).
      assert (Htgt : forall i e, l !! i = Some e -> tgt e = tgt x).
      { intros i e He. pose proof (lookup_lt_Some _ _ _ He) as Hi. rewrite Hl in He by lia.
        apply (tied_target Unordered); [apply (Hhi (lo + i)); [lia|done]|apply (Hlo' (lo + i)); [lia|done]]. }
      set (skip := prefix_len (fun e => bool_decide (wt e <> wt x)) l).
      assert (Hskip : forall i e, i < skip -> l !! i = Some e -> wt e <> wt x).
      { intros i e Hi He. pose proof (prefix_len_lt _ _ _ _ Hi He) as Hf. by apply bool_decide_eq_true in Hf. }
      assert (Hsl : skip <= length l) by apply prefix_len_le.
      cbn [fst snd]. unfold find_cluster_end. destruct (drop skip l) as [|y l'] eqn:E.
      + assert (length (drop skip l) = 0) by by rewrite E. rewrite drop_length in H.
        apply Hmain; [lia|lia|lia|]. intros i e Hi _ He [_ Hw]. apply (Hskip (i - lo) e); [lia| |done].
        rewrite Hl by lia. by replace (lo + (i - lo)) with i by lia.
      + assert (Hy : l !! skip = Some y). { rewrite <- (Nat.add_0_r skip), <- lookup_drop, E. done. }
        assert (Hyx : same y x).
        { split; [by apply (Htgt skip)|]. pose proof (prefix_len_at _ _ _ Hy) as Hf. apply bool_decide_eq_false in Hf.
          destruct (decide (wt y = wt x)); [done|]. by destruct Hf. }
        assert (Hal : arranged (y :: l')).
        { rewrite <- E. apply arranged_drop. unfold l. apply arranged_drop, arranged_take, Ha. }
        destruct (run_facts y l' Hal) as (_ & Hn & Ht & Hd & _). set (c := prefix_len (fun e => same_edge e y) (y :: l')) in *.
        rewrite <- E in Ht, Hd, Hn. rewrite drop_length in Hn.
        apply Hmain; [lia|lia| |].
        * intros i e Hi He. apply (same_trans e y); [|done]. apply (Ht (i - lo - skip) e).
          apply lookup_take_Some. split; [|lia]. rewrite lookup_drop, Hl by lia. by replace (lo + (skip + (i - lo - skip))) with i by lia.
        * intros i e Hi [H1|H1] He Hse.
          -- apply (Hskip (i - lo) e); [lia| |apply Hse]. rewrite Hl by lia. by replace (lo + (i - lo)) with i by lia.
          -- apply (Hd (i - lo - skip - c) e); [|apply (same_trans e x); [done|by apply same_sym]].
             rewrite drop_drop, lookup_drop, Hl by lia. by replace (lo + (skip + c + (i - lo - skip - c))) with i by lia.
    - assert (Hgoal : lo + (hi - lo) <= hi) by lia.
      assert (Hin : forall i e, lo <= i < lo + (hi - lo) -> r !! i = Some e -> same e x).
      { intros i e Hi He. apply (tied_same m); [done|done|apply (Hhi i); [lia|done]|apply (Hlo' i); [lia|done]]. }
      assert (Hres := Hmain lo (hi - lo) ltac:(lia) Hgoal Hin ltac:(lia)).
      destruct m; [exact Hres|done|exact Hres].
  Qed.

  (** *** Preprocessing *)

  Lemma sorted_arranged m r : mode_ok m -> m <> Unordered -> sorted_by (edge_lt m) r -> arranged r.
  Proof.
    intros Hm Hu Hs a b c x y z Hab Hbc Hx Hy Hz Hxz. apply same_sym. apply (tied_same m); [done|done| |].
    - rewrite (same_lt_l m x z y Hxz). by apply (Hs b c).
    - by apply (Hs a b).
  Qed.

  Lemma perm_lookup r r' i e : r' ≡ₚ r -> r' !! i = Some e -> exists j, r !! j = Some e.
  Proof. intros Hp He%elem_of_list_lookup_2. rewrite Hp in He. by apply elem_of_list_lookup in He. Qed.

  Lemma cluster_groups_ok fuel r :
    length r < fuel -> sorted_by (edge_lt Unordered) r ->
    exists r', cluster_groups fuel r = Ok r' /\ r' ≡ₚ r /\ sorted_by (edge_lt Unordered) r' /\ arranged r'.
  Proof.
    revert r. induction fuel as [|fuel IH]; intros r Hf Hs; [lia|]. cbn [cluster_groups].
    destruct r as [|x r]. { exists []. split; [done|]. split; [done|]. split; intros ?; intros; done. }
    set (n := prefix_len (fun e' => tgt x =? tgt e') (x :: r)).
    assert (Hn0 : 0 < n) by (unfold n; simpl; rewrite Nat.eqb_refl; lia).
    assert (Hnl : n <= length (x :: r)) by apply prefix_len_le.
    assert (Hin : forall i e, take n (x :: r) !! i = Some e -> tgt e = tgt x).
    { intros i e [He Hi]%lookup_take_Some. pose proof (prefix_len_lt _ _ _ _ Hi He) as Hx. cbn beta in Hx. lia. }
    assert (Hout : forall i e, drop n (x :: r) !! i = Some e -> tgt x < tgt e).
    { intros i e He. rewrite lookup_drop in He.
      destruct (lookup_in_range (x :: r) n) as [z Hz]; [apply lookup_lt_Some in He; lia|].
      pose proof (prefix_len_at _ _ _ Hz) as Hx. cbn beta in Hx.
      pose proof (Hs 0 n x z ltac:(lia) eq_refl Hz) as Hxz. cbn [edge_lt] in Hxz.
      destruct i as [|i]. { rewrite Nat.add_0_r in He. replace e with z by congruence. lia. }
      pose proof (Hs n (n + S i) z e ltac:(lia) Hz He) as Hze. cbn [edge_lt] in Hze. lia. }
    clearbody n.
    destruct (Algo.ProofsCluster.cluster_spec (A := edge W) (fun e1 e2 => bool_decide (wt e1 = wt e2)) id) with (l := take n (x :: r))
      as (c & Hc & Hcp & Hcc).
    { split; intros *; rewrite ?bool_decide_eq_true; unfold id; congruence. }
    rewrite Hc. cbn [rbind].
    destruct (IH (drop n (x :: r))) as (t & Ht & Htp & Hts & Hta); [rewrite drop_length; simpl in *; lia|by apply sorted_drop|].
    rewrite Ht. cbn [rbind]. exists (c ++ t). split; [done|].
    split. { rewrite Hcp, Htp. by rewrite take_drop. }
    assert (Hcin : forall i e, c !! i = Some e -> tgt e = tgt x).
    { intros i e He. destruct (perm_lookup _ _ _ _ Hcp He) as [j Hj]. by apply (Hin j). }
    assert (Htin : forall i e, t !! i = Some e -> tgt x < tgt e).
    { intros i e He. destruct (perm_lookup _ _ _ _ Htp He) as [j Hj]. by apply (Hout j). }
    split.
    - intros i j a b Hij Ha Hb. cbn [edge_lt]. rewrite lookup_app_Some in Ha, Hb.
      destruct Ha as [Ha|[Hla Ha]], Hb as [Hb|[Hlb Hb]].
      + apply Hcin in Ha, Hb. lia.
      + apply Hcin in Ha. apply Htin in Hb. lia.
      + apply lookup_lt_Some in Hb. lia.
      + apply (Hts (i - length c) (j - length c)); [lia|done|done].
    - intros i j k a b d Hij Hjk Ha Hb Hd Hsame. rewrite lookup_app_Some in Ha, Hb, Hd.
      destruct Ha as [Ha|[Hla Ha]], Hd as [Hd|[Hld Hd]].
      + destruct Hb as [Hb|[Hlb Hb]]; [|apply lookup_lt_Some in Hd; lia].
        split; [apply Hcin in Ha, Hb; congruence|].
        specialize (Hcc i j k a b d Hij Hjk Ha Hb Hd). unfold id in Hcc. rewrite !bool_decide_eq_true in Hcc. by apply Hcc, Hsame.
      + apply Hcin in Ha. apply Htin in Hd. destruct Hsame. lia.
      + apply lookup_lt_Some in Hd. lia.
      + destruct Hb as [Hb|[Hlb Hb]]; [apply lookup_lt_Some in Hb; lia|].
        apply (Hta (i - length c) (j - length c) (k - length c) a b d); [lia|lia|done..].
  Qed.

  Lemma preprocess_row_ok m r :
    mode_ok m ->
    exists r', preprocess_row m r = Ok r' /\ r' ≡ₚ r /\ sorted_by (edge_lt m) r' /\ arranged r'.
  Proof.
    intros Hm. unfold preprocess_row.
    destruct (Algo.ProofsStable.stable_sort_spec (edge_lt m) id (edge_lt_sw m Hm) None r) as (s & Hs & Hp & Hsort & _).
    rewrite Hs. cbn [rbind]. destruct (mode_cases m) as [->|Hu].
    - destruct (cluster_groups_ok (S (length s)) s) as (r' & ? & Hp' & ? & ?); [lia|done|].
      exists r'. split; [done|]. split; [by rewrite Hp'|]. done.
    - assert (Ha : arranged s) by (by apply (sorted_arranged m)).
      exists s. destruct m; [|done|]; done.
  Qed.

  Definition tidy m (g : graph W) : Prop := forall i, sorted_by (edge_lt m) (row g i) /\ arranged (row g i).

  Lemma preprocess_ok m rows :
    mode_ok m -> exists g, preprocess m rows = Ok g /\ same_edges g rows /\ tidy m g.
  Proof.
    intros Hm. induction rows as [|r rows IH].
    - exists []. split; [done|]. split; [done|]. intros i. split; intros ?; intros; done.
    - destruct (preprocess_row_ok m r Hm) as (r' & Hr & Hp & Hs & Ha). destruct IH as (g & Hg & [Hl Hpg] & Ht).
      exists (r' :: g). cbn [preprocess]. rewrite Hr. cbn [rbind]. rewrite Hg. cbn [rbind]. split; [done|]. split.
      + split; [simpl; lia|]. intros [|i]; [exact Hp|exact (Hpg i)].
      + intros [|i]; [done|exact (Ht i)].
  Qed.

  (** *** Validation of undirected graphs *)

  Definition row_ok (g : graph W) (i : nat) r : Prop :=
    forall e, e ∈ r ->
      (tgt e = i -> Nat.Even (hits i (wt e) r))
      /\ (tgt e <> i -> tgt e < length g /\ hits (tgt e) (wt e) r = hits i (wt e) (row g (tgt e))).

  Definition vloop (i lo : nat) r (u : unit) : res unit := if Nat.odd (length r) then Throw LogicError else Ok tt.
  Definition vlink (i t lo : nat) r (tr : nat * nat) (u : unit) : res unit :=
    if tr.2 =? 0 then Throw LogicError else if length r =? tr.2 then Ok tt else Throw LogicError.

  Lemma split_run x r n :
    (forall i e, take n (x :: r) !! i = Some e -> same e x) ->
    (forall i e, drop n (x :: r) !! i = Some e -> ~ same e x) ->
    forall j w, hits j w (x :: r) = if decide (tgt x = j /\ wt x = w) then length (take n (x :: r)) else hits j w (drop n (x :: r)).
  Proof.
    intros Ht Hd j w. rewrite <- (take_drop n (x :: r)) at 1. rewrite hits_app. destruct (decide _) as [[<- <-]|Hne].
    - rewrite hits_all by (intros i e He; by apply (Ht i e)).
      rewrite hits_none; [lia|]. intros i e He Hs. by apply (Hd i e).
    - rewrite (hits_none j w (take n (x :: r))); [lia|]. intros i e He [H1 H2]. apply Hne.
      destruct (Ht i e He) as [H3 H4]. split; congruence.
  Qed.

  Lemma visit_row_validate m g fuel i lo r :
    mode_ok m -> tidy m g -> length r < fuel -> sorted_by (edge_lt m) r -> arranged r ->
    let res := visit_row m g vloop vlink fuel i lo r tt in
    (res = Ok tt /\ row_ok g i r) \/ ((exists z, res = Throw z) /\ ~ row_ok g i r).
  Proof.
    intros Hm Hg. revert lo r. induction fuel as [|fuel IH]; intros lo r Hf Hs Ha; [lia|].
    cbn [visit_row]. destruct r as [|x r]. { left. split; [done|]. intros e He. by apply elem_of_nil in He. }
    rewrite (group_run m x r Hm Hs). destruct (run_facts x r Ha) as (Hn0 & Hnl & Ht & Hd & Hh).
    set (n := prefix_len (fun e => same_edge e x) (x :: r)) in *. clearbody n.
    assert (Hlen : length (take n (x :: r)) = n) by (rewrite take_length; lia).
    pose proof (split_run x r n Ht Hd) as Hsplit. rewrite Hlen in Hsplit.
    specialize (IH (lo + n) (drop n (x :: r))). cbn zeta in IH.
    assert (Hrest : row_ok g i (x :: r) -> row_ok g i (drop n (x :: r))).
    { intros Hok e He. assert (Hex : ~ same e x). { apply elem_of_list_lookup in He as [k Hk]. by apply (Hd k e). }
      assert (Hein : e ∈ x :: r). { rewrite <- (take_drop n (x :: r)). apply elem_of_app. by right. }
      destruct (Hok e Hein) as [H1 H2]. rewrite Hsplit in H1, H2. split; intros Hti.
      - specialize (H1 Hti). rewrite decide_False in H1; [done|]. intros [H3 H4]. apply Hex. split; congruence.
      - destruct (H2 Hti) as [H3 H4]. rewrite decide_False in H4; [done|]. intros [H5 H6]. apply Hex. split; congruence. }
    assert (Hmake : row_ok g i (drop n (x :: r)) ->
      (tgt x = i -> Nat.Even n) -> (tgt x <> i -> tgt x < length g /\ n = hits i (wt x) (row g (tgt x))) -> row_ok g i (x :: r)).
    { intros Hok H1 H2 e He. rewrite <- (take_drop n (x :: r)) in He. apply elem_of_app in He as [He|He].
      - apply elem_of_list_lookup in He as [k Hk]. destruct (Ht k e Hk) as [H3 H4]. rewrite H3, H4.
        rewrite Hsplit. split; intros Hti.
        + rewrite decide_True by done. by apply H1.
        + rewrite Hsplit. rewrite decide_True by done. by apply H2.
      - destruct (Hok e He) as [H3 H4]. assert (Hex : ~ same e x). { apply elem_of_list_lookup in He as [k Hk]. by apply (Hd k e). }
        rewrite !Hsplit. split; intros Hti.
        + rewrite decide_False; [by apply H3|]. intros [H5 H6]. apply Hex. split; congruence.
        + rewrite decide_False; [by apply H4|]. intros [H5 H6]. apply Hex. split; congruence. }
    assert (Hx : x ∈ x :: r) by left.
    assert (IH' : visit_row m g vloop vlink fuel i (lo + n) (drop n (x :: r)) tt = Ok tt /\ row_ok g i (drop n (x :: r))
      \/ (exists z, visit_row m g vloop vlink fuel i (lo + n) (drop n (x :: r)) tt = Throw z) /\ ~ row_ok g i (drop n (x :: r))).
    { apply IH; [rewrite drop_length; simpl in *; lia|by apply sorted_drop|by apply arranged_drop]. }
    clear IH. destruct (Nat.eqb_spec (tgt x) i) as [Hti|Hti].
    - replace (vloop i lo (take n (x :: r)) tt) with (if Nat.odd n then Throw LogicError else Ok tt) by (unfold vloop; by rewrite Hlen).
      destruct (Nat.odd n) eqn:Ho; cbn [rbind].
      + right. split; [by eexists|]. intros Hok. destruct (Hok x Hx) as [H1 _]. specialize (H1 Hti).
        rewrite Hsplit, decide_True in H1 by done. apply Nat.even_spec in H1. rewrite <- Nat.negb_odd, Ho in H1. done.
      + assert (Hev : Nat.Even n) by (apply Nat.even_spec; rewrite <- Nat.negb_odd, Ho; done).
        destruct IH' as [[H1 H2]|[H1 H2]]; [left|right]; (split; [done|]); [by apply Hmake|auto].
    - destruct (Nat.ltb_spec (tgt x) (length g)) as [Hr|Hr]; cbn [rbind].
      2:{ right. split; [by eexists|]. intros Hok. destruct (Hok x Hx) as [_ H2]. destruct (H2 Hti). lia. }
      rewrite rget_row by done. cbn [rbind].
      destruct (Hg (tgt x)) as [Hgs Hga].
      destruct (matching_facts m (set_tgt i x) (row g (tgt x)) Hm Hgs Hga) as (Hc & _).
      cbn [set_tgt tgt wt] in Hc. set (tr := matching m (set_tgt i x) (row g (tgt x))) in *.
      replace (vlink i (tgt x) lo (take n (x :: r)) tr tt) with
        (if tr.2 =? 0 then Throw LogicError else if n =? tr.2 then Ok tt else Throw LogicError) by (unfold vlink; by rewrite Hlen).
      rewrite Hc.
      assert (Hiff : row_ok g i (x :: r) -> n = hits i (wt x) (row g (tgt x))).
      { intros Hok. destruct (Hok x Hx) as [_ H2]. destruct (H2 Hti) as [_ H3]. rewrite Hsplit, decide_True in H3 by done. done. }
      destruct (Nat.eqb_spec (hits i (wt x) (row g (tgt x))) 0) as [Hz|Hz]; cbn [rbind].
      { right. split; [by eexists|]. intros Hok. apply Hiff in Hok. lia. }
      destruct (Nat.eqb_spec n (hits i (wt x) (row g (tgt x)))) as [He|He]; cbn [rbind].
      2:{ right. split; [by eexists|]. auto. }
      destruct IH' as [[H1 H2]|[H1 H2]]; [left|right]; (split; [done|]); [by apply Hmake|auto].
  Qed.

  Lemma visit_edges_validate m g is :
    mode_ok m -> tidy m g -> (forall i, i ∈ is -> i < length g) ->
    let res := visit_edges m g (fun _ => Ok tt) vloop vlink is tt in
    (res = Ok tt /\ forall i, i ∈ is -> row_ok g i (row g i))
    \/ ((exists z, res = Throw z) /\ ~ forall i, i ∈ is -> row_ok g i (row g i)).
  Proof.
    intros Hm Hg. induction is as [|i is IH]; intros Hi.
    { left. split; [done|]. intros i Hx. by apply elem_of_nil in Hx. }
    cbn [visit_edges rbind]. rewrite rget_row by (apply Hi; left). cbn [rbind]. destruct (Hg i) as [Hs Ha].
    destruct (visit_row_validate m g (S (length (row g i))) i 0 (row g i) Hm Hg ltac:(lia) Hs Ha) as [[H1 H2]|[[z H1] H2]];
      cbn zeta in *; rewrite H1; cbn [rbind].
    - destruct IH as [[H3 H4]|[H3 H4]]; [intros j Hj; apply Hi; by right|left|right]; (split; [done|]).
      + intros j [->|Hj]%elem_of_cons; auto.
      + intros H. apply H4. intros j Hj. apply H. by right.
    - right. split; [by eexists|]. intros H. apply H2, H. left.
  Qed.

  Lemma rows_ok_reciprocal g : reciprocal g <-> forall i, i ∈ seq 0 (length g) -> row_ok g i (row g i).
  Proof.
    split.
    - intros (Hr & Hc & He) i _ e Hin. split; intros Ht.
      + apply He.
      + split; [by apply (Hr i e)|]. apply Hc.
    - intros H. assert (H' : forall i e, e ∈ row g i -> (tgt e = i -> Nat.Even (count g i i (wt e)))
        /\ (tgt e <> i -> tgt e < length g /\ count g i (tgt e) (wt e) = count g (tgt e) i (wt e))).
      { intros i e Hin. apply (H i); [|done]. apply elem_of_list_In, in_seq.
        destruct (decide (i < length g)); [lia|]. rewrite row_ge in Hin by lia. by apply elem_of_nil in Hin. }
      assert (Hi : forall i j w, 0 < count g i j w -> exists e, e ∈ row g i /\ tgt e = j /\ wt e = w).
      { intros i j w Hp. destruct (hits_pos j w (row g i) Hp) as (k & e & He & ? & ?).
        exists e. split; [by eapply elem_of_list_lookup_2|done]. }
      split; [|split].
      + intros i e Hin. destruct (decide (tgt e = i)) as [Ht|Ht].
        * destruct (decide (i < length g)); [lia|]. rewrite row_ge in Hin by lia. by apply elem_of_nil in Hin.
        * by apply (H' i e).
      + intros i j w. destruct (decide (i = j)) as [->|Hij]; [done|].
        destruct (decide (0 < count g i j w)) as [Hp|Hp].
        * destruct (Hi i j w Hp) as (e & He & <- & <-). destruct (H' i e He) as [_ H2]. by apply H2.
        * destruct (decide (0 < count g j i w)) as [Hq|Hq]; [|lia].
          destruct (Hi j i w Hq) as (e & He & <- & <-). destruct (H' j e He) as [_ H2]. by destruct (H2 Hij).
      + intros i w. destruct (decide (0 < count g i i w)) as [Hp|Hp].
        * destruct (Hi i i w Hp) as (e & He & Ht & <-). by apply (H' i e).
        * exists 0. lia.
  Qed.

  Lemma validate_undirected_ok m g :
    mode_ok m -> tidy m g ->
    (validate_undirected m g = Ok tt /\ reciprocal g)
    \/ ((exists z, validate_undirected m g = Throw z) /\ ~ reciprocal g).
  Proof.
    intros Hm Hg. rewrite rows_ok_reciprocal. apply visit_edges_validate; [done|done|].
    intros i Hi%elem_of_list_In%in_seq. lia.
  Qed.

  Lemma same_edges_reciprocal (g g' : graph W) : same_edges g g' -> reciprocal g <-> reciprocal g'.
  Proof.
    intros [Hl Hp]. unfold reciprocal, in_range, count. rewrite Hl. split.
    - intros (H1 & H2 & H3). split; [|split].
      + intros i e He. apply (H1 i). by rewrite Hp.
      + intros i j w. specialize (H2 i j w). by rewrite !Hp in H2.
      + intros i w. specialize (H3 i w). by rewrite Hp in H3.
    - intros (H1 & H2 & H3). split; [|split].
      + intros i e He. apply (H1 i). by rewrite <- Hp.
      + intros i j w. rewrite !Hp. apply H2.
      + intros i w. rewrite Hp. apply H3.
  Qed.

  (** *** The other flavours *)

  Lemma validate_directed_ok (g : graph W) :
    (validate_directed g = Ok tt /\ in_range g) \/ (validate_directed g = Throw OutOfRange /\ ~ in_range g).
  Proof.
    unfold validate_directed. destruct (forallb _ g) eqn:E; [left|right]; (split; [done|]).
    - rewrite forallb_forall in E. intros i e He. destruct (decide (i < length g)) as [Hi|Hi].
      + assert (Hin : In (row g i) g). { apply elem_of_list_In, elem_of_list_lookup. exists i. by apply row_lt. }
        specialize (E _ Hin). rewrite forallb_forall in E. apply elem_of_list_In, E in He. lia.
      + rewrite row_ge in He by lia. by apply elem_of_nil in He.
    - intros Hr. assert (forallb (forallb (fun e => tgt e <? length g)) g = true); [|congruence].
      apply forallb_forall. intros r Hin%elem_of_list_In. apply forallb_forall. intros e He%elem_of_list_In.
      apply elem_of_list_lookup in Hin as [i Hi]. apply Nat.ltb_lt, (Hr i). by rewrite (row_lookup _ _ _ Hi).
  Qed.

  Definition edge_comp_ok (g : graph W) (i k : nat) e : Prop :=
    exists e', row g (tgt e) !! comp e = Some e' /\ tgt e' = i /\ comp e' = k /\ wt e' = wt e /\ (tgt e, comp e) <> (i, k).

  Lemma validate_embedded_edge_ok g i k e :
    (validate_embedded_edge g i k e = Ok tt /\ edge_comp_ok g i k e)
    \/ ((exists z, validate_embedded_edge g i k e = Throw z) /\ ~ edge_comp_ok g i k e).
  Proof.
    unfold validate_embedded_edge. destruct (Nat.ltb_spec (tgt e) (length g)) as [Ht|Ht]; cbn [negb].
    2:{ right. split; [by eexists|]. intros (e' & He' & _). rewrite row_ge in He' by lia. done. }
    rewrite rget_row by done. cbn [rbind]. destruct (Nat.ltb_spec (comp e) (length (row g (tgt e)))) as [Hc|Hc]; cbn [negb].
    2:{ right. split; [by eexists|]. intros (e' & He' & _). apply lookup_lt_Some in He'. lia. }
    destruct ((tgt e =? i) && (comp e =? k)) eqn:Hself.
    { right. split; [by eexists|]. intros (e' & _ & _ & _ & _ & Hne). apply Hne. apply andb_true_iff in Hself as [?%Nat.eqb_eq ?%Nat.eqb_eq]. congruence. }
    destruct (lookup_in_range _ _ Hc) as [te Hte]. rewrite (proj2 (rget_ok _ _ _) Hte). cbn [rbind].
    assert (Hiff : edge_comp_ok g i k e -> tgt te = i /\ comp te = k /\ wt te = wt e).
    { intros (e' & He' & H1 & H2 & H3 & _). assert (e' = te) as -> by congruence. done. }
    destruct (Nat.eqb_spec (comp te) k) as [H1|H1]; cbn [negb]; [|right; split; [by eexists|tauto]].
    destruct (Nat.eqb_spec (tgt te) i) as [H2|H2]; cbn [negb]; [|right; split; [by eexists|tauto]].
    case_bool_decide as H3; cbn [negb]; [|right; split; [by eexists|]; intros H; destruct (Hiff H) as (_ & _ & H4); congruence].
    left. split; [done|]. exists te. split; [done|]. split; [done|]. split; [done|]. split; [done|].
    intros [= Hx1 Hx2]. rewrite Hx1, Hx2, !Nat.eqb_refl in Hself. done.
  Qed.

  Lemma validate_embedded_row_ok g i k r :
    (validate_embedded_row g i k r = Ok tt /\ forall n e, r !! n = Some e -> edge_comp_ok g i (k + n) e)
    \/ ((exists z, validate_embedded_row g i k r = Throw z) /\ ~ forall n e, r !! n = Some e -> edge_comp_ok g i (k + n) e).
  Proof.
    revert k. induction r as [|e r IH]; intros k; cbn [validate_embedded_row]; [by left|].
    destruct (validate_embedded_edge_ok g i k e) as [[-> H1]|[[x ->] H1]]; cbn [rbind].
    - destruct (IH (S k)) as [[H2 H3]|[H2 H3]]; [left|right]; (split; [done|]).
      + intros [|n] e' He'; [injection He' as <-; by rewrite Nat.add_0_r|]. rewrite <- Nat.add_succ_comm. by apply H3.
      + intros H. apply H3. intros n e' He'. rewrite Nat.add_succ_comm. by apply H.
    - right. split; [by eexists|]. intros H. apply H1. rewrite <- (Nat.add_0_r k). by apply H.
  Qed.

  Lemma validate_embedded_rows_ok g i todo :
    let good := forall j r k e, todo !! j = Some r -> r !! k = Some e -> edge_comp_ok g (i + j) k e in
    (validate_embedded_rows g i todo = Ok tt /\ good) \/ ((exists z, validate_embedded_rows g i todo = Throw z) /\ ~ good).
  Proof.
    revert i. induction todo as [|r todo IH]; intros i good; cbn [validate_embedded_rows]; [by left|].
    destruct (validate_embedded_row_ok g i 0 r) as [[-> H1]|[[x ->] H1]]; cbn [rbind].
    - destruct (IH (S i)) as [[H2 H3]|[H2 H3]]; [left|right]; (split; [done|]).
      + intros [|j] r' k e Hr He.
        * injection Hr as <-. rewrite Nat.add_0_r. by apply (H1 k).
        * rewrite <- Nat.add_succ_comm. by apply (H3 j r').
      + intros H. apply H3. intros j r' k e Hr He. rewrite Nat.add_succ_comm. by apply (H (S j) r').
    - right. split; [by eexists|]. intros H. apply H1. intros n e He. rewrite <- (Nat.add_0_r i). by apply (H 0 r).
  Qed.

  Lemma validate_embedded_ok (g : graph W) :
    (validate_embedded_rows g 0 g = Ok tt /\ comp_ok g) \/ ((exists z, validate_embedded_rows g 0 g = Throw z) /\ ~ comp_ok g).
  Proof.
    assert (Hiff : comp_ok g <-> forall j r k e, g !! j = Some r -> r !! k = Some e -> edge_comp_ok g (0 + j) k e).
    { split.
      - intros H j r k e Hr He. apply (H j k e). by rewrite (row_lookup _ _ _ Hr).
      - intros H i k e He. pose proof (row_some_lt _ _ _ _ He) as Hi. apply (H i (row g i)); [by apply row_lt|done]. }
    rewrite Hiff. apply validate_embedded_rows_ok.
  Qed.

  (** *** Construction *)

  Lemma construct_ok fl m rows :
    mode_ok m -> graph_ok fl rows ->
    exists g, construct fl m rows = Ok g /\ graph_ok fl g /\ same_edges g rows
      /\ match fl with Undirected => tidy m g | _ => g = rows end.
  Proof.
    intros Hm Hok. destruct fl; cbn [construct graph_ok] in *.
    - destruct (validate_directed_ok rows) as [[-> _]|[_ H]]; [|done]. exists rows. done.
    - destruct (preprocess_ok m rows Hm) as (g & Hg & Hse & Ht). rewrite Hg. cbn [rbind].
      pose proof (proj2 (same_edges_reciprocal g rows Hse) Hok) as Hrec.
      destruct (validate_undirected_ok m g Hm Ht) as [[-> _]|[_ H]]; [|done]. exists g. done.
    - destruct (validate_embedded_ok rows) as [[-> _]|[_ H]]; [|done]. exists rows. done.
  Qed.

  Lemma construct_throws fl m rows :
    mode_ok m -> ~ graph_ok fl rows -> exists z, construct fl m rows = Throw z.
  Proof.
    intros Hm Hok. destruct fl; cbn [construct graph_ok] in *.
    - destruct (validate_directed_ok rows) as [[_ H]|[-> _]]; [done|]. by eexists.
    - destruct (preprocess_ok m rows Hm) as (g & Hg & Hse & Ht). rewrite Hg. cbn [rbind].
      destruct (validate_undirected_ok m g Hm Ht) as [[_ H]|[[x ->] _]]; [|by eexists].
      by apply (same_edges_reciprocal g rows Hse) in H.
    - destruct (validate_embedded_ok rows) as [[_ H]|[[x ->] _]]; [done|]. by eexists.
  Qed.
End init.
