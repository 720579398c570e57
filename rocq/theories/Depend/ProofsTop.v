(** Which tests are run. *)
From Coq Require Import Ascii String Sorted.
From stdpp Require Import list list_numbers relations sorting.
From Verif.Base Require Import Outcome Compare ListLemmas.
From Verif.Graph Require Import Model ModelTraverse Spec SpecTraverse ProofsBase ProofsTraverseEdges ProofsTraverseDfs ProofsTraversePost.
From Verif.Text Require Import Model.
From Verif.Failure Require Import Model Proofs.
From Verif.Prune Require Import Model Proofs.
From Verif.Depend Require Import Model Spec Proofs.
Local Notation length := List.length.

(** ** The nodes *)

Definition is_code (f : list text) : bool := is_cpp f || is_header f.

Lemma add_files_ok w prune fs l : add_files w prune fs = Ok l ->
  l = map (fun f => Info f (written w f) (prune <? written w f)%N) (filter (fun f => is_code f = true) fs)
  /\ (forall e f, executable w = Some e -> f ∈ fs -> is_code f = true -> (written w f < e)%N).
Proof.
  revert l. induction fs as [|f fs IH]; intros l H; cbn [add_files] in H.
  { injection H as <-. split; [done|]. by intros e f _ []%elem_of_nil. }
  rewrite filter_cons. fold (is_code f) in H. destruct (is_code f) eqn:Hc.
  - rewrite decide_True by done. cbn [map]. unfold make_info in H. destruct (executable w) as [e|] eqn:He.
    + destruct (N.leb_spec e (written w f)) as [Hle|Hle]; [done|]. cbn [rbind] in H. destruct (add_files w prune fs) as [l'| | |]; try done.
      cbn [rbind] in H. injection H as <-. destruct (IH l' eq_refl) as [-> IH2]. split; [done|].
      intros e' f' [= <-] [-> |Hf']%elem_of_cons; [done|by apply IH2].
    + cbn [rbind] in H. destruct (add_files w prune fs) as [l'| | |]; try done. cbn [rbind] in H. injection H as <-.
      destruct (IH l' eq_refl) as [-> _]. by split.
  - rewrite decide_False by done. destruct (IH l H) as [-> IH2]. split; [done|].
    intros e' f' He [-> |Hf']%elem_of_cons Hc'; [congruence|by apply IH2].
Qed.

Lemma add_files_total w prune fs :
  (forall e f, executable w = Some e -> f ∈ fs -> is_code f = true -> (written w f < e)%N) ->
  add_files w prune fs = Ok (map (fun f => Info f (written w f) (prune <? written w f)%N) (filter (fun f => is_code f = true) fs)).
Proof.
  induction fs as [|f fs IH]; intros H; [done|]. cbn [add_files]. fold (is_code f).
  specialize (IH (fun e f' He Hf' => H e f' He (elem_of_list_further _ _ _ Hf'))). rewrite filter_cons.
  destruct (is_code f) eqn:Hc.
  - rewrite decide_True by done. unfold make_info. destruct (executable w) as [e|] eqn:He.
    + specialize (H e f eq_refl (elem_of_list_here _ _) Hc). destruct (N.leb_spec e (written w f)); [lia|]. cbn [rbind]. by rewrite IH.
    + cbn [rbind]. by rewrite IH.
  - rewrite decide_False by done. done.
Qed.

Lemma add_files_throw w prune fs e f :
  executable w = Some e -> f ∈ fs -> is_code f = true -> (e <= written w f)%N -> add_files w prune fs = Throw RuntimeError.
Proof.
  intros He. induction fs as [|x fs IH]; intros Hf Hc Hle; [by apply elem_of_nil in Hf|]. cbn [add_files]. fold (is_code x).
  apply elem_of_cons in Hf as [-> |Hf].
  - rewrite Hc. unfold make_info. rewrite He. destruct (N.leb_spec e (written w x)); [done|lia].
  - destruct (is_code x); [|by apply IH]. unfold make_info. rewrite He. destruct (N.leb_spec e (written w x)); [done|].
    cbn [rbind]. by rewrite IH.
Qed.

Lemma info_compare_total : total_cmp (fun i j : list text => match text_compare (file_name i) (file_name j) with Eq => path_compare i j | c => c end).
Proof.
  assert (H : total_cmp text_compare) by apply text_total. split.
  - intros x y. destruct (text_compare (file_name x) (file_name y)) eqn:E.
    + apply (cmp_eq path_total).
    + split; [done|]. intros ->. by rewrite (cmp_refl H) in E.
    + split; [done|]. intros ->. by rewrite (cmp_refl H) in E.
  - intros x y. rewrite (cmp_opp H (file_name x) (file_name y)). destruct (text_compare (file_name x) (file_name y)); cbn; [|done|done].
    apply (cmp_opp path_total).
  - intros x y z. destruct (text_compare (file_name x) (file_name y)) eqn:E1; [|intros _|done].
    + apply (cmp_eq H) in E1. rewrite E1. destruct (text_compare (file_name y) (file_name z)); [|done|done]. apply (cmp_trans path_total).
    + destruct (text_compare (file_name y) (file_name z)) eqn:E2; [intros _|intros _|done].
      * apply (cmp_eq H) in E2. rewrite <- E2, E1. done.
      * by rewrite (cmp_trans H _ _ _ E1 E2).
Qed.

Lemma make_nodes_ok w prune ns : make_nodes w prune = Ok ns ->
  ns ≡ₚ map (fun f => Info f (written w f) (prune <? written w f)%N) (filter (fun f => is_code f = true) (listing w)).
Proof.
  unfold make_nodes. intros H. destruct (add_files w prune (listing w)) as [l| | |] eqn:Hl; try done. cbn [rbind] in H. injection H as <-.
  apply add_files_ok in Hl as [-> _].
  generalize (map (fun f => Info f (written w f) (prune <? written w f)%N) (filter (fun f => is_code f = true) (listing w))). intros l.
  induction l as [|x l IH]; [done|]. cbn.
  assert (Hins : forall l, insert_by info_compare x l ≡ₚ x :: l).
  { clear. induction l as [|y l IH]; cbn; [done|]. destruct (info_compare y x); [done| |done]. rewrite IH. constructor. }
  rewrite Hins. by f_equiv.
Qed.

Lemma nodes_spec w prune ns n : make_nodes w prune = Ok ns ->
  n ∈ ns <-> file n ∈ listing w /\ is_code (file n) = true /\ n = Info (file n) (written w (file n)) (prune <? written w (file n))%N.
Proof.
  intros H%make_nodes_ok. rewrite H, elem_of_list_fmap. split.
  - intros (f & -> & Hf). apply elem_of_list_filter in Hf as [? ?]. done.
  - intros (Hf & Hc & E). exists (file n). split; [done|]. by apply elem_of_list_filter.
Qed.

Lemma nodes_NoDup w prune ns : make_nodes w prune = Ok ns -> NoDup (listing w) -> NoDup (file <$> ns).
Proof.
  intros H%make_nodes_ok Hd. rewrite H, <- list_fmap_compose. unfold compose. cbn. rewrite list_fmap_id. by apply NoDup_filter.
Qed.

(** ** The analysis *)

Lemma candidate_iff w f inc p : candidate w f inc p <-> bool_decide (file_name p = file_name inc) && is_included w f inc p = true.
Proof.
  unfold candidate, is_included, is_absolute, join_path, parent_path, is_absolute. rewrite andb_true_iff, bool_decide_eq_true.
  destruct (decide (head inc = Some root_dir)) as [H|H].
  - rewrite (bool_decide_eq_true_2 _ H), bool_decide_eq_true. done.
  - rewrite (bool_decide_eq_false_2 _ H), !orb_true_iff, !bool_decide_eq_true, elem_of_list_fmap. naive_solver.
Qed.

Lemma find_node_iff w f inc ns v : find_node w f inc ns = Some v <->
  exists m, ns !! v = Some m /\ candidate w f inc (file m) /\ forall v' m', v' < v -> ns !! v' = Some m' -> ~ candidate w f inc (file m').
Proof.
  revert v. induction ns as [|n ns IH]; intros v; cbn [find_node]; [split; [done|by intros (m & ? & _)]|].
  pose proof (candidate_iff w f inc (file n)) as Hc. destruct (bool_decide (file_name (file n) = file_name inc) && is_included w f inc (file n)).
  - split.
    + intros [= <-]. exists n. split; [done|]. split; [by apply Hc|]. intros v' m' ?. lia.
    + intros (m & Hm & Hcm & Hno). destruct v as [|v]; [done|]. exfalso. apply (Hno 0 n); [lia|done|by apply Hc].
  - assert (~ candidate w f inc (file n)) as Hn by (intros ?%Hc; done). split.
    + intros H. destruct (find_node w f inc ns) as [k|]; [|done]. injection H as <-. destruct (proj1 (IH k) eq_refl) as (m & Hm & Hcm & Hno).
      exists m. split; [done|]. split; [done|]. intros [|v'] m' Hlt Hm'; [cbn in Hm'; congruence|]. apply (Hno v'); [lia|done].
    + intros (m & Hm & Hcm & Hno). destruct v as [|v]; [cbn in Hm; congruence|].
      assert (find_node w f inc ns = Some v) as ->; [|done]. apply IH. exists m. split; [done|]. split; [done|].
      intros v' m' Hlt Hm'. apply (Hno (S v')); [lia|done].
Qed.

Section analysis.
  Context (w : project) (cutoff : text) (prune : N) (ns : list info).
  Hypothesis Hns : make_nodes w prune = Ok ns.
  Hypothesis Hp : paired w cutoff ns.

  Lemma names_has u inc v : names_file w cutoff ns u inc v <->
    has_include w cutoff ns u inc /\ exists n, ns !! u = Some n /\ find_node w (file n) inc ns = Some v.
  Proof.
    split.
    - intros (n & incs & m & Hn & Hi & Hin & Hf). split; [by exists n, incs|exists n]. split; [done|]. apply find_node_iff. by exists m.
    - intros ((n & incs & Hn & Hi & Hin) & m & Hm & (k & Hk)%find_node_iff). rewrite Hn in Hm. injection Hm as <-. by exists n, incs, k.
  Qed.

  Lemma own_owns s h : own_header w cutoff ns s h <-> exists inc, has_include w cutoff ns s inc /\ owns w ns s inc h.
  Proof.
    split.
    - intros (n & inc & Hn & Hc & (Hi & m & Hm & Hf)%names_has & Hs). exists inc. split; [done|].
      rewrite Hn in Hm. injection Hm as <-. by exists n.
    - intros (inc & Hi & n & Hn & Hf & Hc & Hs). exists n, inc. repeat (split; [done|]). split; [|done].
      apply names_has. split; [done|]. by exists n.
  Qed.

  Lemma link_gives u v : link w cutoff ns u v <-> exists s inc, has_include w cutoff ns s inc /\ gives w ns s inc u v.
  Proof.
    split.
    - intros [(inc & (Hi & n & Hn & Hf)%names_has)|(s & Ho & (inc & (Hi & n & Hn & Hf)%names_has) & Hne)].
      + exists u, inc. split; [done|]. exists n. split; [done|]. split; [done|]. by left.
      + exists s, inc. split; [done|]. exists n. split; [done|]. split; [done|]. right.
        assert (u = S s) as E by (by eapply paired_next).
        pose proof Ho as (n' & inc' & Hn' & Hc & (_ & m' & Hm' & Hf')%names_has & Hs). rewrite Hn in Hn', Hm'. injection Hn' as <-. injection Hm' as <-.
        split; [done|]. split; [done|]. split.
        * intros Hst. assert (own_header w cutoff ns s v) as Hov.
          { apply own_owns. exists inc. split; [done|]. by exists n. }
          apply (paired_next _ _ _ Hp) in Hov. congruence.
        * destruct (find_node_Some _ _ _ _ _ Hf') as (m & Hm & Hname). exists m. split; [congruence|]. unfold stem_of in *. by rewrite Hname.
    - intros (s & inc & Hi & n & Hn & Hf & [-> |(-> & Hc & Hst & m & Hm & Hsm)]).
      + left. exists inc. apply names_has. split; [done|]. by exists n.
      + right. exists s. assert (own_header w cutoff ns s (S s)) as Ho by (by eapply (paired_only _ _ _ Hp)). split; [done|]. split.
        * exists inc. apply names_has. split; [done|]. by exists n.
        * intros <-. destruct (find_node_Some _ _ _ _ _ Hf) as (m' & Hm' & Hname). rewrite Hm in Hm'. injection Hm' as <-.
          apply Hst. rewrite <- Hsm. unfold stem_of. by rewrite Hname.
  Qed.

  Lemma link_depends u v : link w cutoff ns u v -> rtc (depends w cutoff ns) u v.
  Proof.
    intros [Hu|(s & Ho & Hu & _)].
    - apply rtc_once. by left.
    - eapply rtc_l; [right; exact Ho|]. apply rtc_once. by left.
  Qed.

  Lemma depends_link u v : rtc (depends w cutoff ns) u v ->
    rtc (link w cutoff ns) u v \/ exists h, rtc (link w cutoff ns) u h /\ own_header w cutoff ns v h.
  Proof.
    revert v. apply rtc_ind_r; [left; constructor|]. intros v x H1 H2 IH.
    destruct IH as [IH|(h & IH & Ho)].
    - destruct H2 as [H2|H2].
      + left. eapply rtc_r; [exact IH|by left].
      + right. by exists v.
    - destruct H2 as [H2|H2].
      + left. destruct (decide (x = h)) as [-> |Hne]; [done|]. eapply rtc_r; [exact IH|]. right. by exists v.
      + exfalso. destruct Ho as (n & inc & Hn & Hc & _). pose proof (paired_header _ _ _ Hp x v n H2 Hn). congruence.
  Qed.

  Lemma path_rtc (g : graph unit) u v d : SpecTraverse.path g u v d -> rtc (has_edge g) u v.
  Proof. induction 1 as [|v e d H IH He]; [constructor|]. eapply rtc_r; [exact IH|]. by exists e. Qed.

  Lemma rtc_iff (R S : nat -> nat -> Prop) : (forall u v, R u v <-> S u v) -> forall u v, rtc R u v <-> rtc S u v.
  Proof. intros H u v. split; intros Hr; (eapply rtc_subrel; [|exact Hr]); intros ? ? ?; by apply H. Qed.

  Lemma precedes_lists es x y : precedes es (After x) (After y) -> exists a b, afters es = a ++ y :: b /\ x ∈ a.
  Proof.
    intros (l1 & l2 & l3 & ->). rewrite afters_app. cbn [afters omap list_omap]. 
    change (After x :: l2 ++ After y :: l3) with ([After x] ++ l2 ++ [After y] ++ l3). rewrite !afters_app.
    exists (afters l1 ++ [x] ++ afters l2), (afters l3). split; [by rewrite <- !app_assoc|]. set_solver.
  Qed.

  Lemma analyse_ok : exists ns', analyse w cutoff prune = Ok ns' /\ file <$> ns' = file <$> ns
    /\ (forall n, n ∈ ns' -> stale n = (prune <? time n)%N)
    /\ (forall u n, ns' !! u = Some n -> exists v n0, rtc (depends w cutoff ns) u v /\ ns !! v = Some n0 /\ time n = time n0)
    /\ (forall u n v n0, ns' !! u = Some n -> no_cycle w cutoff ns u -> rtc (depends w cutoff ns) u v -> ns !! v = Some n0 -> (time n0 <= time n)%N).
  Proof.
    unfold analyse. rewrite Hns. cbn [rbind].
    destruct (make_graph_inv w cutoff prune ns) as (g & ns1 & D & -> & Hinv & HD).
    { intros s inc h n Hi Ho Hn. eapply (paired_header _ _ _ Hp); [|exact Hn]. apply own_owns. by exists inc. }
    { intros n Hn. apply (nodes_spec w prune ns n Hns) in Hn as (_ & _ & ->). done. }
    cbn [rbind fst snd]. destruct Hinv as [Hlen Hrange Hfiles Hedges Htime Hbound Hstale].
    assert (Hlink : forall u v, has_edge g u v <-> link w cutoff ns u v).
    { intros u v. rewrite Hedges, link_gives. by setoid_rewrite HD. }
    assert (Hfeeds : forall v u, feeds w ns D v u <-> v = u \/ own_header w cutoff ns v u).
    { intros v u. unfold feeds. rewrite own_owns. by setoid_rewrite HD. }
    pose proof (same_length ns Hfiles) as Hl1.
    assert (Hes : exists es, traverse_dfs true 0 g = Ok es /\ NoDup (afters es) /\ (forall n, n ∈ afters es <-> n < length g) /\
        forall u v, u < length g -> has_edge g u v -> (exists a b, afters es = a ++ u :: b /\ v ∈ a) \/ rtc (has_edge g) v u).
    { destruct (decide (0 < length g)) as [Hpos|Hpos].
      - destruct (ProofsTraverseTop.traverse_depth_first unit true 0 g Hrange Hpos) as (es & _ & He & _).
        destruct (dfs_post true 0 g es Hrange Hpos He) as (Hnd & Hw & Hpost). exists es. split; [done|]. split; [done|]. split; [done|].
        intros u v Hu (e & Her & <-). destruct (Hpost u e) as [Hpr|[d Hd]]; [by apply Hw|done| |].
        + left. by apply precedes_lists.
        + right. by eapply path_rtc.
      - exists []. destruct g; [|cbn in Hpos; lia]. split; [done|]. split; [constructor|]. split; [|intros; cbn in *; lia].
        intros n. rewrite elem_of_nil. cbn. lia. }
    destruct Hes as (es & -> & Hnd & Hw & Hpost). cbn [rbind].
    destruct (late_nodes_ok prune g Hrange (afters es) ns1) as (ns2 & H2 & Hlater & _ & Hmax).
    { lia. } { intros n Hn. by apply Hw. }
    rewrite H2. exists ns2. split; [done|]. split; [by rewrite (later_files _ _ _ _ Hlater)|]. split; [by apply (later_stale _ _ _ _ Hlater)|]. split.
    - intros u n Hn. destruct (later_from _ _ _ _ Hlater u n Hn) as (v & n1 & Hv & Hn1 & ->).
      destruct (Htime v n1 Hn1) as (x & n0 & Hx%Hfeeds & Hn0 & ->). exists x, n0. split; [|done].
      assert (rtc (depends w cutoff ns) u v) as Huv.
      { clear -Hv Hlink. induction Hv as [|a b c H1 _ IH]; [constructor|]. apply Hlink, link_depends in H1. by etrans. }
      destruct Hx as [-> |Hx]; [done|]. eapply rtc_r; [exact Huv|by right].
    - intros u n v n0 Hn Hcyc Hd Hn0.
      assert (Hstep : forall x y nx ny, (forall v, rtc (link w cutoff ns) x v -> ~ tc (link w cutoff ns) v v) -> link w cutoff ns x y ->
        ns2 !! x = Some nx -> ns2 !! y = Some ny -> (time ny <= time nx)%N).
      { intros x y nx ny Hx Hxy Hnx Hny. pose proof (lookup_lt_Some _ _ _ Hnx) as Hlt.
        assert (length ns2 = length ns1) as Hl2. { pose proof (f_equal length (later_files _ _ _ _ Hlater)) as E. by rewrite !fmap_length in E. }
        destruct (Hpost x y) as [(a & b & E & Hy)|Hr]; [lia|by apply Hlink| |].
        - apply (Hmax a x b y nx ny); [done|done| |by apply Hlink|done|done].
          rewrite E in Hnd. apply NoDup_app in Hnd as (_ & Hnd & _). by apply Hnd.
        - exfalso. apply (Hx x); [constructor|]. rewrite (rtc_iff _ _ Hlink) in Hr. eapply tc_rtc_r; [by apply tc_once|done]. }
      assert (Hlk : forall x y, link w cutoff ns x y -> y < length ns2).
      { intros x y (s & inc & _ & m & _ & Hf & _)%link_gives. apply find_node_Some in Hf as (k & Hk & _). apply lookup_lt_Some in Hk.
        pose proof (f_equal length (later_files _ _ _ _ Hlater)) as E. rewrite !fmap_length in E. lia. }
      assert (Hchain : forall x, rtc (link w cutoff ns) u x -> forall nx, ns2 !! x = Some nx -> (time nx <= time n)%N).
      { clear Hd. intros x Hx. revert n Hn Hcyc. induction Hx as [x|x y z Hxy Hyz IH]; intros n Hn Hcyc nx Hnx.
        - assert (n = nx) as -> by congruence. done.
        - destruct (lookup_lt_is_Some_2 ns2 y (Hlk x y Hxy)) as [ny Hny].
          pose proof (Hstep x y n ny Hcyc Hxy Hn Hny).
          assert (time nx <= time ny)%N; [|lia]. apply IH; [done| |done].
          + intros v' Hv'. apply Hcyc. by eapply rtc_l. }
      assert (Hnode : forall x y m0, rtc (link w cutoff ns) u x -> x < length ns2 -> y = x \/ own_header w cutoff ns y x -> ns !! y = Some m0 -> (time m0 <= time n)%N).
      { intros x y m0 Hx Hlt Hy Hm0. destruct (lookup_lt_is_Some_2 ns2 x Hlt) as [nx Hnx].
        pose proof (Hchain x Hx nx Hnx). destruct (same_file ns1 x nx (later_files _ _ _ _ Hlater) Hnx) as (n1 & Hn1 & _).
        pose proof (later_time _ _ _ _ Hlater x n1 nx Hn1 Hnx). pose proof (Hbound x n1 y m0 Hn1 (proj2 (Hfeeds y x) Hy) Hm0). lia. }
      assert (Hrl : forall x, rtc (link w cutoff ns) u x -> x < length ns2).
      { intros x Hx. apply rtc_inv_r in Hx as [<- |(y & _ & Hy)]; [by eapply lookup_lt_Some|by eapply Hlk]. }
      destruct (depends_link u v Hd) as [Hv|(h & Hh & Ho)].
      + apply (Hnode v v); [done|by apply Hrl|by left|done].
      + apply (Hnode h v); [done|by apply Hrl|by right|done].
  Qed.
End analysis.

(** ** The selection *)

(** Whatever is found is at least [x]; of a sorted list everything before is less. *)
Lemma bisect_spec x : forall steps l len, len <= steps -> len <= length l ->
  match drop len l with [] => True | y :: _ => path_compare y x <> Lt end ->
  exists a, l = a ++ bisect steps l len x
    /\ match bisect steps l len x with [] => True | y :: _ => path_compare y x <> Lt end
    /\ (psorted l -> Forall (fun y => plt y x) a).
Proof.
  induction steps as [|steps IH]; intros l len Hst Hlen Hend; cbn [bisect].
  { assert (len = 0) as -> by lia. exists []. split; [done|]. split; [exact Hend|]. intros _. apply Forall_nil_2. }
  destruct (decide (len = 0)) as [-> |Hz].
  { replace (match drop (0 / 2) l with [] => l | _ :: l' => if 0 =? 0 then l else _ end) with l by (by destruct (drop (0 / 2) l)).
    exists []. split; [done|]. split; [exact Hend|]. intros _. apply Forall_nil_2. }
  pose proof (Nat.div_lt len 2 ltac:(lia) ltac:(lia)) as Hhalf. assert (len / 2 < length l) as Hh by lia.
  destruct (drop (len / 2) l) as [|y l'] eqn:E.
  { apply (f_equal length) in E. rewrite drop_length in E. cbn [List.length] in E. lia. }
  replace (len =? 0) with false by (symmetry; by apply Nat.eqb_neq).
  assert (l = take (len / 2) l ++ y :: l') as El by (by rewrite <- E, take_drop).
  assert (length (take (len / 2) l) = len / 2) as Ht by (rewrite take_length; lia).
  assert (path_compare y x <> Lt -> exists a, l = a ++ bisect steps l (len / 2) x
    /\ match bisect steps l (len / 2) x with [] => True | y :: _ => path_compare y x <> Lt end
    /\ (psorted l -> Forall (fun y => plt y x) a)) as Hge.
  { intros Hy. apply IH; [lia|lia|]. by rewrite E. }
  destruct (path_compare y x) eqn:Ey; [by apply Hge| |by apply Hge].
  destruct (IH l' (len - len / 2 - 1)) as (a & Ha & Hb & Hc).
  { lia. } { apply (f_equal length) in El. rewrite app_length in El. cbn [List.length] in El. lia. }
  { assert (drop (len - len / 2 - 1) l' = drop len l) as ->; [|done].
    pose proof (drop_drop l (S (len - len / 2 - 1)) (len / 2)) as Hd. rewrite E in Hd. cbn [drop] in Hd. rewrite Hd. f_equal. lia. }
  exists (take (len / 2) l ++ y :: a). split; [rewrite <- app_assoc; cbn [app]; rewrite <- Ha; exact El|]. split; [done|].
  intros Hs. rewrite El in Hs. unfold psorted in Hs. apply StronglySorted_app_inv_r in Hs as Hr. apply StronglySorted_inv in Hr as [Hr _].
  apply Forall_app. split; [|constructor; [exact Ey|by apply Hc]].
  apply Forall_forall. intros z Hz'. eapply plt_trans; [|exact Ey]. eapply (elem_of_StronglySorted_app plt); [exact Hs|done|left].
Qed.

Lemma lower_bound_split l x : exists a, l = a ++ lower_bound l x
  /\ match lower_bound l x with [] => True | y :: _ => path_compare y x <> Lt end /\ (psorted l -> Forall (fun y => plt y x) a).
Proof. apply bisect_spec; [done|done|]. rewrite drop_ge by done. done. Qed.

Lemma lower_bound_spec l x : psorted l ->
  (x ∈ l /\ exists l', lower_bound l x = x :: l') \/
  (x ∉ l /\ match lower_bound l x with [] => True | y :: _ => plt x y end).
Proof.
  intros Hs. destruct (lower_bound_split l x) as (a & Ha & Hb & Hc). specialize (Hc Hs).
  assert (x ∉ a) as Hxa. { intros Hx. rewrite Forall_forall in Hc. by apply Hc, plt_irrefl in Hx. }
  destruct (lower_bound l x) as [|y l'] eqn:E.
  { right. split; [|done]. rewrite Ha, app_nil_r. done. }
  destruct (path_cases y x) as [[E1 ->]|[[E1 _]|[_ E1]]]; [|done|].
  - left. split; [rewrite Ha; set_solver|by exists l'].
  - right. split; [|done]. rewrite Ha, elem_of_app. intros [?|H]; [done|]. rewrite Ha in Hs.
    apply StronglySorted_app_inv_r, StronglySorted_inv in Hs as [_ Hs]. apply elem_of_cons in H as [-> |H]; [by apply plt_irrefl in E1|].
    rewrite Forall_forall in Hs. apply Hs in H. eapply plt_irrefl, plt_trans; [exact H|exact E1].
Qed.

(** Also of a list which is not sorted nothing is found which is not there. *)
Lemma binary_search_in l x : binary_search l x = true -> x ∈ l.
Proof.
  unfold binary_search. destruct (lower_bound_split l x) as (a & Ha & Hb & _). destruct (lower_bound l x) as [|y l']; [done|].
  destruct (path_compare x y) eqn:E; [intros _|done|intros _].
  - apply (cmp_eq path_total) in E as ->. rewrite Ha. set_solver.
  - by apply (cmp_gt path_total) in E.
Qed.

Lemma binary_search_spec l x : psorted l -> binary_search l x = true <-> x ∈ l.
Proof.
  intros Hs. unfold binary_search. destruct (lower_bound_spec l x Hs) as [[Hx [l' ->]]|[Hx H]].
  - rewrite (cmp_refl path_total). done.
  - split; [|done]. destruct (lower_bound l x) as [|y l']; [done|]. unfold plt in H. by rewrite H.
Qed.

Lemma consider_passing_in l x s : psorted l -> x ∈ l -> consider_passing l x s = false.
Proof.
  intros Hs Hx. unfold consider_passing. destruct (lower_bound_spec l x Hs) as [[_ [l' ->]]|[? _]]; [by rewrite decide_True|done].
Qed.

Lemma newer_cons t x l : newer t (x :: l) <-> (t < x)%N \/ newer t l.
Proof.
  unfold newer. setoid_rewrite elem_of_cons. split; [intros (y & [-> |Hy] & H); [by left|right; by exists y]|].
  intros [H|(y & Hy & H)]; [exists x|exists y]; naive_solver.
Qed.

Lemma newer_nil t : ~ newer t [].
Proof. by intros (x & []%elem_of_nil & _). Qed.

Lemma newer_fold t x l : (t < foldl N.max x l)%N <-> newer t (x :: l).
Proof.
  revert x. induction l as [|y l IH]; intros x; cbn [foldl].
  - rewrite newer_cons. split; [by left|]. intros [?|[]%newer_nil]. done.
  - rewrite IH, !newer_cons. split.
    + intros [H|H]; [|by right; right]. destruct (N.max_spec x y) as [[_ E]|[_ E]]; rewrite E in H; [right|]; by left.
    + intros [H|[H|H]]; [left; lia|left; lia|by right].
Qed.

Lemma newer_exists t l : existsb (fun x => t <? x)%N l = true <-> newer t l.
Proof.
  induction l as [|x l IH]; cbn; [split; [done|by intros []%newer_nil]|].
  rewrite newer_cons, orb_true_iff, IH, N.ltb_lt. done.
Qed.

Lemma test_stale_spec w prune passing rel i : psorted passing -> (passes w = None -> passing = []) -> stale i = (prune <? time i)%N ->
  test_stale w prune passing rel i = true <->
  (rel ∉ passing /\ newer prune (time i :: inside w rel))
  \/ (exists ps s, passes w = Some (ps, s) /\ rel ∈ passing /\ newer prune (time i :: folder w rel) /\ newer ps (time i :: folder w rel)).
Proof.
  intros Hs Hnone Hi. unfold test_stale.
  assert (Hout : (stale i || materials_modified w prune rel) = true <-> newer prune (time i :: inside w rel)).
  { rewrite Hi, orb_true_iff, N.ltb_lt, newer_cons. unfold materials_modified, inside.
    destruct (materials w rel) as [[t ts]|]; [by rewrite newer_exists|]. split; (intros [?|H]; [by left|]); [done|by apply newer_nil in H]. }
  destruct (passes w) as [[ps s]|].
  2:{ rewrite Hout, (Hnone eq_refl). split; [intros H; left; split; [apply not_elem_of_nil|exact H]|]. intros [[_ ?]|(? & ? & ? & _)]; done. }
  destruct (binary_search passing rel) eqn:Hb.
  - apply (binary_search_spec passing rel Hs) in Hb.
    assert (Hfold : forall t, (t < (match materials_time w rel with Some m => N.max m (time i) | None => time i end))%N <-> newer t (time i :: folder w rel)).
    { intros t. unfold materials_time, folder. destruct (materials w rel) as [[m ts]|].
      - rewrite newer_cons. rewrite <- newer_fold. lia.
      - rewrite newer_cons. split; [by left|]. intros [?|[]%newer_nil]. done. }
    assert (Hst : (stale i || match materials_time w rel with Some t => (prune <? t)%N | None => false end) = true <-> newer prune (time i :: folder w rel)).
    { rewrite <- Hfold, Hi, orb_true_iff, N.ltb_lt. destruct (materials_time w rel) as [m|]; [rewrite N.ltb_lt; lia|]. split; [by intros [?|?]|by left]. }
    cbv zeta. rewrite consider_passing_in by done.
    destruct (stale i || match materials_time w rel with Some t => (prune <? t)%N | None => false end) eqn:Es; cbn [andb].
    + pose proof (proj1 Hst eq_refl) as Hn. destruct (N.leb_spec (match materials_time w rel with Some m => N.max m (time i) | None => time i end) ps) as [Hle|Hlt].
      * split; [done|]. intros [[? _]|(ps' & s' & [= <- <-] & _ & _ & Hnp%Hfold)]; [done|lia].
      * split; [|done]. intros _. right. exists ps, s. split; [done|]. split; [done|]. split; [done|]. by apply Hfold.
    + split; [done|]. intros [[? _]|(ps' & s' & _ & _ & Hn%Hst & _)]; done.
  - assert (rel ∉ passing) as Hnot. { intros H%(binary_search_spec passing rel Hs). congruence. }
    rewrite Hout. split; [by left|]. intros [[_ ?]|(? & ? & _ & ? & _)]; done.
Qed.

(** Also of passing tests which are not in order: what is left out has not changed since the one or the other time. *)
Lemma test_stale_false w prune passing rel i : stale i = (prune <? time i)%N -> test_stale w prune passing rel i = false ->
  exists t, (t = prune \/ exists s, passes w = Some (t, s)) /\ ~ newer t (time i :: inside w rel).
Proof.
  intros Hi. unfold test_stale.
  assert (Hout : (stale i || materials_modified w prune rel) = false -> ~ newer prune (time i :: inside w rel)).
  { rewrite Hi, orb_false_iff, N.ltb_ge, newer_cons. unfold materials_modified, inside. intros [H1 H2] [H|H]; [lia|].
    destruct (materials w rel) as [[t ts]|]; [|by apply newer_nil in H]. apply newer_exists in H. congruence. }
  assert (Hfold : forall t, ((match materials_time w rel with Some m => N.max m (time i) | None => time i end) <= t)%N -> ~ newer t (time i :: inside w rel)).
  { intros t. unfold materials_time, inside. destruct (materials w rel) as [[m ts]|].
    - intros Hle. rewrite newer_cons. intros [H|H]; [lia|]. assert (t < foldl N.max m ts)%N; [|lia]. apply newer_fold, newer_cons. by right.
    - rewrite newer_cons. intros Hle [H|[]%newer_nil]. lia. }
  destruct (passes w) as [[ps s]|]; [|intros H; exists prune; split; [by left|by apply Hout]].
  destruct (binary_search passing rel); [|intros H; exists prune; split; [by left|by apply Hout]].
  cbv zeta. destruct (stale i || match materials_time w rel with Some t => (prune <? t)%N | None => false end) eqn:Es; cbn [andb].
  - destruct (N.leb_spec (match materials_time w rel with Some m => N.max m (time i) | None => time i end) ps) as [Hle|Hlt]; [|done].
    intros _. exists ps. split; [right; by exists s|by apply Hfold].
  - intros _. exists prune. split; [by left|]. apply Hfold. rewrite Hi, orb_false_iff, N.ltb_ge in Es. destruct Es as [E1 E2].
    destruct (materials_time w rel); [apply N.ltb_ge in E2; lia|done].
Qed.

Lemma strip_spec repo p rel : strip repo p = Some rel <-> p = repo ++ rel /\ rel <> [].
Proof.
  revert p. induction repo as [|d repo IH]; intros p.
  - destruct p as [|e p]; cbn.
    + split; [done|]. intros [<- ?]. done.
    + split; [intros [= <-]; done|]. intros [-> _]. done.
  - destruct p as [|e p]; cbn; [split; [done|]; by intros [? _]|]. destruct (decide (d = e)) as [-> |Hne].
    + rewrite IH. split; [intros [-> ?]; done|]. intros [H ?]. by injection H as ->.
    + split; [done|]. intros [H _]. injection H as ? _. done.
Qed.

Lemma stale_tests_spec w prune passing ns rel :
  rel ∈ stale_tests w prune passing ns <-> exists n, n ∈ ns /\ is_cpp (file n) = true /\ strip (tests w) (file n) = Some rel /\ test_stale w prune passing rel n = true.
Proof.
  induction ns as [|n ns IH]; cbn [stale_tests]; [rewrite elem_of_nil; split; [done|]; by intros (n & []%elem_of_nil & _)|].
  assert (Hskip : (is_cpp (file n) = true -> forall r, strip (tests w) (file n) = Some r -> test_stale w prune passing r n = false) ->
    rel ∈ stale_tests w prune passing ns <-> exists m, m ∈ n :: ns /\ is_cpp (file m) = true /\ strip (tests w) (file m) = Some rel /\ test_stale w prune passing rel m = true).
  { intros Hno. rewrite IH. split; intros (m & Hm & H); [exists m; split; [by right|done]|].
    apply elem_of_cons in Hm as [-> |Hm]; [|by exists m]. destruct H as (H1 & H2 & H3). rewrite (Hno H1 rel H2) in H3. done. }
  destruct (is_cpp (file n)) eqn:Hc; [|by apply Hskip]. destruct (strip (tests w) (file n)) as [r|] eqn:Hr; [|by apply Hskip].
  destruct (test_stale w prune passing r n) eqn:Ht.
  - rewrite elem_of_cons, IH. split.
    + intros [-> |(m & Hm & H)]; [exists n; split; [left|done]|exists m; split; [by right|done]].
    + intros (m & [-> |Hm]%elem_of_cons & H1 & H2 & H3); [left; congruence|right; by exists m].
  - apply Hskip. intros _ r' [= <-]. done.
Qed.

Lemma stale_tests_NoDup w prune passing ns : NoDup (file <$> ns) -> NoDup (stale_tests w prune passing ns).
Proof.
  induction ns as [|n ns IH]; cbn [stale_tests]; [constructor|]. intros Hd. cbn in Hd. apply NoDup_cons in Hd as [Hn Hd]. specialize (IH Hd).
  destruct (is_cpp (file n)); [|done]. destruct (strip (tests w) (file n)) as [r|] eqn:Hr; [|done].
  destruct (test_stale w prune passing r n); [|done]. constructor; [|done].
  intros (m & Hm & _ & Hs & _)%stale_tests_spec. apply Hn. apply elem_of_list_fmap. exists m. split; [|done].
  apply strip_spec in Hr as [-> _], Hs as [-> _]. done.
Qed.

Section selection.
  Context (w : project) (cutoff : text) (prune : N) (ns : list info) (passing failing : list (list text)).
  Hypothesis Hstamp : stamp w = Some prune.
  Hypothesis Hlist : NoDup (listing w).
  Hypothesis Hns : make_nodes w prune = Ok ns.
  Hypothesis Hp : paired w cutoff ns.
  Hypothesis Hpass : read_tests (snd <$> passes w) [] = Ok passing.
  Hypothesis Hps : psorted passing.
  Hypothesis Hfail : read_tests (failures w) [] = Ok failing.
  Hypothesis Hfs : psorted failing.

  Lemma tests_to_run_ok : exists l, tests_to_run w cutoff = Ok (Some l) /\ psorted l
    /\ (forall u n rel t, ns !! u = Some n -> is_cpp (file n) = true -> file n = tests w ++ rel -> rel <> [] ->
          no_cycle w cutoff ns u -> last_change w cutoff ns u t -> rel ∈ l <-> selected w prune passing failing rel t)
    /\ (forall rel, rel ∈ l -> rel ∈ failing \/
          exists u n v m, ns !! u = Some n /\ is_cpp (file n) = true /\ file n = tests w ++ rel /\ rel <> []
            /\ rtc (depends w cutoff ns) u v /\ ns !! v = Some m /\ selected w prune passing failing rel (time m)).
  Proof.
    destruct (analyse_ok w cutoff prune ns Hns Hp) as (ns' & Ha & Hfiles & Hstale & Hsound & Hcomplete).
    unfold tests_to_run, find_stale_tests. rewrite Hstamp, Ha. cbn [rbind]. rewrite Hpass. cbn [rbind]. rewrite Hfail. cbn [rbind].
    pose proof (nodes_NoDup w prune ns Hns Hlist) as Hnd.
    destruct (set_union_spec (sort_by path_compare (stale_tests w prune passing ns')) failing) as [Hu Hin].
    { apply sort_psorted, stale_tests_NoDup. by rewrite Hfiles. } { done. }
    eexists. split; [done|]. split; [done|].
    assert (Hnone : passes w = None -> passing = []). { intros E. rewrite E in Hpass. cbn in Hpass. by injection Hpass as <-. }
    assert (Hsort : forall p, p ∈ sort_by path_compare (stale_tests w prune passing ns') <-> p ∈ stale_tests w prune passing ns').
    { intros p. by rewrite (sort_by_perm (cmp := path_compare)). }
    split.
    - intros u n rel t Hn Hc Hf Hr Hcyc [(v & m & Hv & Hm & Ht) Hmax]. rewrite Hin, Hsort, stale_tests_spec. unfold selected.
      destruct (same_file_inv ns u n Hfiles Hn) as (n' & Hn' & Hf').
      assert (time n' = t) as Htime.
      { destruct (Hsound u n' Hn') as (x & k & Hx & Hk & Hxt). pose proof (Hmax x k Hx Hk). pose proof (Hcomplete u n' v m Hn' Hcyc Hv Hm). lia. }
      assert (Hin' : n' ∈ ns') by (by eapply elem_of_list_lookup_2).
      assert (Hiff : (exists k, k ∈ ns' /\ is_cpp (file k) = true /\ strip (tests w) (file k) = Some rel /\ test_stale w prune passing rel k = true)
        <-> test_stale w prune passing rel n' = true).
      { split.
        - intros (k & Hk & _ & Hs & Hst). assert (k = n') as ->; [|done]. apply strip_spec in Hs as [Hs _].
          apply elem_of_list_lookup in Hk as [y Hk]. assert (y = u) as ->; [|congruence].
          rewrite <- Hfiles in Hnd. eapply (NoDup_lookup _ y u (file k) Hnd); rewrite list_lookup_fmap; [by rewrite Hk|]. rewrite Hn'. cbn. congruence.
        - intros Hst. exists n'. split; [done|]. split; [by rewrite Hf'|]. split; [|done]. apply strip_spec. split; [congruence|done]. }
      rewrite Hiff, test_stale_spec by (done || by apply Hstale). rewrite Htime. naive_solver.
    - intros rel [Hrel|Hrel]%Hin; [|by left]. right. apply Hsort, stale_tests_spec in Hrel as (n' & Hn' & Hc & [Hs Hr]%strip_spec & Hst).
      pose proof (Hstale n' Hn') as Hsn. apply elem_of_list_lookup in Hn' as [u Hn'].
      destruct (same_file ns u n' Hfiles Hn') as (n & Hn & Hf). destruct (Hsound u n' Hn') as (v & m & Hv & Hm & Ht).
      exists u, n, v, m. split; [done|]. split; [by rewrite Hf|]. split; [by rewrite Hf|]. split; [done|]. split; [done|]. split; [done|].
      rewrite <- Ht. apply test_stale_spec in Hst; [|done|done|done]. unfold selected. naive_solver.
  Qed.
End selection.

(** The prune files need not be in order for this. *)
Lemma tests_to_run_left_out w cutoff prune ns passing failing :
  stamp w = Some prune -> NoDup (listing w) -> make_nodes w prune = Ok ns -> paired w cutoff ns ->
  read_tests (snd <$> passes w) [] = Ok passing -> read_tests (failures w) [] = Ok failing ->
  exists l, tests_to_run w cutoff = Ok (Some l)
    /\ (forall rel, rel ∈ failing -> rel ∈ l)
    /\ (forall u n rel, ns !! u = Some n -> is_cpp (file n) = true -> file n = tests w ++ rel -> rel <> [] ->
          no_cycle w cutoff ns u -> rel ∉ l ->
          exists t, (t = prune \/ exists s, passes w = Some (t, s))
            /\ (forall v m, rtc (depends w cutoff ns) u v -> ns !! v = Some m -> (time m <= t)%N)
            /\ Forall (fun x => (x <= t)%N) (inside w rel)).
Proof.
  intros Hstamp Hlist Hns Hp Hpass Hfail.
  destruct (analyse_ok w cutoff prune ns Hns Hp) as (ns' & Ha & Hfiles & Hstale & Hsound & Hcomplete).
  unfold tests_to_run, find_stale_tests. rewrite Hstamp, Ha. cbn [rbind]. rewrite Hpass. cbn [rbind]. rewrite Hfail. cbn [rbind].
  eexists. split; [done|]. split; [intros rel H; apply set_union_in; by right|].
  intros u n rel Hn Hc Hf Hr Hcyc Hl. destruct (same_file_inv ns u n Hfiles Hn) as (n' & Hn' & Hf').
  assert (Hin' : n' ∈ ns') by (by eapply elem_of_list_lookup_2).
  assert (test_stale w prune passing rel n' = false) as Hst.
  { apply not_true_is_false. intros Hst. apply Hl, set_union_in. left. rewrite (sort_by_perm (cmp := path_compare)). apply stale_tests_spec.
    exists n'. split; [done|]. split; [by rewrite Hf'|]. split; [|done]. apply strip_spec. split; [congruence|done]. }
  destruct (test_stale_false _ _ _ _ _ (Hstale n' Hin') Hst) as (t & Ht & Hno). exists t. split; [done|]. split.
  - intros v m Hv Hm. pose proof (Hcomplete u n' v m Hn' Hcyc Hv Hm). destruct (N.le_gt_cases (time n') t); [lia|]. exfalso.
    apply Hno, newer_cons. by left.
  - apply Forall_forall. intros x Hx. destruct (N.le_gt_cases x t); [done|]. exfalso. apply Hno, newer_cons. right. by exists x.
Qed.
