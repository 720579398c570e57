From stdpp Require Import list.
From Verif.Base Require Import Outcome ListLemmas.
From Verif.Graph Require Import Model Spec ModelTraverse SpecTraverse ProofsBase ProofsTraverse ProofsTraverseEdges.
Local Open Scope res_scope.

Section bfs.
  Context {W : Type} (g : graph W) (fl : flavour) (cap : option nat) (start : nat).
  Context (Hin : in_range g) (Hcap : roomy cap (length g)).
  Implicit Types e : edge W.
  Local Notation N := (length g).
  Local Notation tour := (tour g fl BreadthFirst).

  (** The nodes [L] have been discovered, in this order, [ds] being their depths; the first [p] have been visited. *)
  Record layered (L ds : list nat) (p : nat) : Prop := {
    ly_length : length ds = length L;
    ly_first : L !! 0 = Some start /\ ds !! 0 = Some 0;
    ly_path : forall i u d, L !! i = Some u -> ds !! i = Some d -> path g start u d;
    ly_sorted : forall i j a b, i <= j -> ds !! i = Some a -> ds !! j = Some b -> a <= b;
    ly_width : forall i j a b, p <= i -> ds !! i = Some a -> ds !! j = Some b -> b <= a + 1;
    ly_edges : forall i u d e, i < p -> L !! i = Some u -> ds !! i = Some d -> e ∈ row g u ->
      exists j d', L !! j = Some (tgt e) /\ ds !! j = Some d' /\ d' <= d + 1
  }.

  Lemma layered_step L ds p n D' :
    layered L ds p -> L !! p = Some n ->
    (forall e, e ∈ row g n -> tgt e ∈ L ++ D') -> (forall x, x ∈ D' -> exists e, e ∈ row g n /\ tgt e = x) ->
    exists ds', layered (L ++ D') ds' (S p).
  Proof.
    intros [H1 [H2 H2'] H3 H4 H5 H6] Hn Ht Hb. assert (Hp : p < length L) by by apply lookup_lt_Some in Hn.
    destruct (lookup_in_range ds p) as [dn Hdn]; [lia|].
    exists (ds ++ replicate (length D') (dn + 1)).
    assert (Hcase : forall i d, (ds ++ replicate (length D') (dn + 1)) !! i = Some d ->
      (i < length L /\ ds !! i = Some d) \/ (length L <= i /\ d = dn + 1)).
    { intros i d. rewrite lookup_app_Some. intros [Hd|[Hi Hd]].
      - left. split; [|done]. apply lookup_lt_Some in Hd. lia.
      - right. split; [lia|]. apply lookup_replicate in Hd as [-> _]. done. }
    split.
    - rewrite !app_length, replicate_length. lia.
    - split; rewrite lookup_app_l; [done|lia|done|lia].
    - intros i u d Hu Hd. apply Hcase in Hd as [[Hi Hd]|[Hi ->]].
      + rewrite lookup_app_l in Hu by done. by eapply H3.
      + rewrite lookup_app_r in Hu by done. destruct (Hb u) as (e & He & <-); [by eapply elem_of_list_lookup_2|].
        rewrite Nat.add_1_r. eapply path_step; [|done]. by eapply H3.
    - intros i j a b Hij Ha Hb'. apply Hcase in Ha as [[Hi Ha]|[Hi ->]], Hb' as [[Hj Hb']|[Hj ->]]; [by eapply (H4 i j)| |lia|lia].
      by eapply (H5 p i).
    - intros i j a b Hij Ha Hb'. assert (Hda : dn <= a).
      { apply Hcase in Ha as [[Hi Ha]|[Hi ->]]; [|lia]. eapply (H4 p i); [lia|done|done]. }
      apply Hcase in Hb' as [[Hj Hb']|[Hj ->]]; [|lia]. assert (b <= dn + 1); [|lia]. by eapply (H5 p j).
    - intros i u d e Hi Hu Hd He. rewrite lookup_app_l in Hu by lia. rewrite lookup_app_l in Hd by lia.
      destruct (decide (i = p)) as [->|Hne].
      + assert (u = n) as -> by congruence. assert (d = dn) as -> by congruence.
        specialize (Ht e He). apply elem_of_list_lookup in Ht as [j Hj]. exists j.
        destruct (lookup_in_range (ds ++ replicate (length D') (dn + 1)) j) as [d' Hd'].
        { apply lookup_lt_Some in Hj. rewrite app_length in *. rewrite replicate_length. lia. }
        exists d'. split; [done|]. split; [done|]. apply Hcase in Hd' as [[Hj' Hd']|[_ ->]]; [|done]. by eapply (H5 p j).
      + destruct (H6 i u d e) as (j & d' & Hj & Hd' & Hle); [lia|done|done|done|]. exists j, d'.
        split; [by apply lookup_app_l_Some|]. split; [by apply lookup_app_l_Some|done].
  Qed.

  Lemma layered_distance L ds i u d :
    layered L ds (length L) -> NoDup L -> L !! i = Some u -> ds !! i = Some d -> distance g start u d.
  Proof.
    intros [H1 [H2 H2'] H3 H4 H5 H6] Hn Hu Hd. split; [by eapply H3|].
    assert (Hall : forall v d', path g start v d' -> exists j dj, L !! j = Some v /\ ds !! j = Some dj /\ dj <= d').
    { induction 1 as [|v e d' Hpath (j & dj & Hj & Hdj & Hle) He]; [exists 0, 0; done|].
      destruct (H6 j v dj e) as (j' & dj' & ? & ? & ?); [by apply lookup_lt_Some in Hj|done|done|done|].
      exists j', dj'. split; [done|]. split; [done|lia]. }
    intros d' Hp. destruct (Hall u d' Hp) as (j & dj & Hj & Hdj & Hle).
    assert (j = i) as -> by (by eapply NoDup_lookup). assert (dj = d) as -> by congruence. done.
  Qed.

  Lemma drain_bfs fuel s P ds :
    good g s (P ++ frontier s) P -> layered (P ++ frontier s) ds (length P) -> N <= length P + fuel ->
    exists s' P' ds', drain fuel fl BreadthFirst cap g s = Ok s' /\ good g s' (P ++ P') (P ++ P')
      /\ out s' = out s ++ tour P P'
      /\ layered (P ++ P') ds' (length (P ++ P')).
  Proof.
    revert s P ds. induction fuel as [|fuel IH]; intros s P ds H Hly Hfuel.
    - assert (Hf : frontier s = []).
      { pose proof (NoDup_bounded _ N (good_nodup _ _ _ _ H) (good_lt _ _ _ _ H)) as Hl. rewrite app_length in Hl.
        destruct (frontier s); [done|simpl in Hl; lia]. }
      exists s, [], ds. cbn [drain]. rewrite Hf in *. rewrite app_nil_r in *. cbn. by rewrite app_nil_r.
    - destruct (frontier s) as [|y f] eqn:Hf.
      { exists s, [], ds. cbn [drain]. rewrite Hf in *. rewrite app_nil_r in *. cbn. by rewrite app_nil_r. }
      rewrite <- Hf in H, Hly. assert (Hne : frontier s <> []) by by rewrite Hf.
      destruct (step_ok g fl BreadthFirst cap Hin Hcap I s _ P H (Permutation_refl _) Hne)
        as (s0 & s1 & n & D' & Hpop & Hin1 & Hn & H1 & Hf1 & HnN & HnP & Ho1 & Hr1 & Ht1 & Hb1).
      cbn [drain]. rewrite Hf. rewrite Hpop. cbn [rbind fst snd]. rewrite Hin1. cbn [rbind].
      cbn [pick] in Hn, Hf1. rewrite Hf in Hn, Hf1. injection Hn as ->. cbn [take drop app] in Hf1.
      rewrite drop_0 in Hf1.
      assert (Heq : (P ++ n :: f) ++ D' = (P ++ [n]) ++ frontier s1). { rewrite Hf1, <- !app_assoc. done. }
      rewrite Hf in H1, Hly, Ht1. destruct (layered_step _ _ _ n D' Hly) as [ds1 Hly1]; [|done|done|].
      { by rewrite list_lookup_middle. }
      rewrite Heq in H1, Hly1. assert (Hlen : S (length P) = length (P ++ [n])) by (rewrite app_length; simpl; lia).
      rewrite Hlen in Hly1.
      destruct (IH s1 (P ++ [n]) ds1 H1 Hly1) as (s' & P' & ds' & Hs & Hg & Ho & Hl); [lia|].
      exists s', (n :: P'), ds'. rewrite <- app_assoc in Hg, Hl. split; [done|]. split; [done|]. split; [|done].
      rewrite Ho, Ho1. cbn [ProofsTraverse.tour]. by rewrite <- app_assoc.
  Qed.

  Lemma traverse_bfs find_all :
    start < N ->
    exists vs vs' ds, traverse fl BreadthFirst cap find_all start g = Ok (tour [] (vs ++ vs'))
      /\ layered vs ds (length vs) /\ NoDup (vs ++ vs') /\ (forall x, reaches g start x -> x ∈ vs).
  Proof.
    intros Hs. unfold traverse. destruct (Nat.ltb_spec start N); [|lia].
    assert (Hbt : between g (start_state g) []).
    { split; [|done| |]; cbn.
      + split; cbn; [apply knows_nil|apply knows_nil|done|constructor|]. intros x Hx. by apply elem_of_nil in Hx.
      + intros u e Hu. by apply elem_of_nil in Hu.
      + lia. }
    assert (exists n, N = S n) as [n HN] by (exists (N - 1); lia). 
    replace (searches N) with (searches (W := W) (S n)) by (by rewrite HN). cbn [searches].
    destruct (next_start_ok g find_all start (start_state g) [] Hbt) as (i & s0 & Hn & Hi & Hni & H0 & Ho0 & Hhd); [simpl; lia|lia|done|].
    rewrite Hn. cbn [rbind fst snd]. specialize (Hhd eq_refl). subst i.
    destruct (one_search g fl BreadthFirst cap Hin Hcap I s0 [] start H0 Hi Hni) as (s1 & s2 & s3 & P' & Hs1 & Hs2 & Hs3 & Hg2 & Hf2 & H3 & Ho3 & Hre).
    rewrite Hs1. cbn [rbind]. rewrite Hs2. cbn [rbind]. rewrite Hs3. cbn [rbind].
    destruct (drain_bfs N s2 [] [0]) as (s3' & vs & ds & Hs3' & Hg3 & Ho3' & Hly).
    { rewrite Hf2. exact Hg2. }
    { rewrite Hf2. cbn. split; [done|done|..].
      - intros [|i] u d; [|done]. intros [= <-] [= <-]. constructor.
      - intros [|i] [|j] a b; try done. intros _ [= <-] [= <-]. done.
      - intros [|i] [|j] a b; try done. intros _ [= <-] [= <-]. lia.
      - intros i u d e. lia. }
    { simpl. lia. }
    assert (s3' = s3) as -> by congruence. cbn [app] in H3, Ho3, Hg3, Hly, Ho3'.
    assert (Hvs : vs = start :: P').
    { assert (Ho2 : out s2 = []).
      { clear - Hs1 Hs2 Ho0 H0 Hcap HN. revert Hs2 Hs1. unfold register, push_node. intros Hs2 Hs1.
        destruct (rset (disc s1) start true); cbn in Hs2; try done. injection Hs2 as <-. cbn.
        destruct cap as [c|]; [destruct (_ <? _); [|done]|]; injection Hs1 as <-; cbn; by rewrite Ho0. }
      rewrite Ho2 in Ho3'. rewrite Ho0 in Ho3. cbn [app start_state out] in Ho3, Ho3'.
      destruct (tour_events g fl BreadthFirst [] vs) as [<- _]. destruct (tour_events g fl BreadthFirst [] (start :: P')) as [<- _].
      congruence. }
    subst vs.
    assert (Hreach : forall x, reaches g start x -> x ∈ start :: P').
    { intros x Hx. eapply reaches_closed; [apply (bt_closed _ _ _ H3)|left|done]. }
    destruct (negb find_all || (num s3 =? N)) eqn:Hterm.
    - exists (start :: P'), [], ds. rewrite app_nil_r. cbn [rbind]. rewrite Ho3, Ho0. split; [done|]. split; [done|]. split; [|done].
      by destruct Hg3.
    - apply orb_false_iff in Hterm as [Hfa Hlen]. apply negb_false_iff in Hfa. apply Nat.eqb_neq in Hlen.
      rewrite (good_num _ _ _ _ (bt_good _ _ _ H3)) in Hlen.
      destruct (searches_ok g fl BreadthFirst cap Hin Hcap I find_all start n s3 (start :: P') H3) as (s' & P'' & Hs' & H' & Ho' & _).
      + pose proof (NoDup_bounded _ N (good_nodup _ _ _ _ Hg3) (good_lt _ _ _ _ Hg3)). lia.
      + lia.
      + congruence.
      + simpl. lia.
      + exists (start :: P'), P'', ds. rewrite Hs'. cbn [rbind]. split; [|split; [done|split; [|done]]].
        * rewrite Ho', Ho3, Ho0. cbn [app start_state out]. change (start :: P' ++ P'') with ((start :: P') ++ P''). by rewrite tour_app.
        * by destruct (bt_good _ _ _ H').
  Qed.

  Lemma bfs_distance find_all es i j u v a b :
    start < N -> traverse fl BreadthFirst cap find_all start g = Ok es ->
    befores es !! i = Some u -> befores es !! j = Some v -> i <= j ->
    distance g start u a -> distance g start v b -> a <= b.
  Proof.
    intros Hs He Hu Hv Hij [Hpu Hau] [Hpv Hbv]. destruct (traverse_bfs find_all Hs) as (vs & vs' & ds & Ht & Hly & Hn & Hre).
    rewrite Ht in He. injection He as <-. destruct (tour_events g fl BreadthFirst [] (vs ++ vs')) as [Hbe _]. rewrite Hbe in Hu, Hv.
    assert (Hpos : forall i u, reaches g start u -> (vs ++ vs') !! i = Some u -> vs !! i = Some u).
    { intros k w Hr Hk. specialize (Hre w Hr). apply elem_of_list_lookup in Hre as [k' Hk'].
      assert (k = k') as -> by (eapply NoDup_lookup; [done|done|by apply lookup_app_l_Some]). done. }
    apply Hpos in Hu; [|by exists a]. apply Hpos in Hv; [|by exists b].
    apply NoDup_app in Hn as [Hn _].
    destruct (lookup_in_range ds i) as [du Hdu]. { rewrite (ly_length _ _ _ Hly). by apply lookup_lt_Some in Hu. }
    destruct (lookup_in_range ds j) as [dv Hdv]. { rewrite (ly_length _ _ _ Hly). by apply lookup_lt_Some in Hv. }
    destruct (layered_distance vs ds i u du Hly Hn Hu Hdu) as [Hdu1 Hdu2]. destruct (layered_distance vs ds j v dv Hly Hn Hv Hdv) as [Hdv1 Hdv2].
    pose proof (Hau _ Hdu1). pose proof (Hdv2 _ Hpv). pose proof (ly_sorted _ _ _ Hly i j du dv Hij Hdu Hdv). lia.
  Qed.

  (** Nodes which cannot be reached from the first come after those which can. *)
  Lemma bfs_unreachable find_all es i j u v :
    start < N -> traverse fl BreadthFirst cap find_all start g = Ok es ->
    befores es !! i = Some u -> befores es !! j = Some v -> i <= j -> reaches g start v -> reaches g start u.
  Proof.
    intros Hs He Hu Hv Hij Hr. destruct (traverse_bfs find_all Hs) as (vs & vs' & ds & Ht & Hly & Hn & Hre).
    rewrite Ht in He. injection He as <-. destruct (tour_events g fl BreadthFirst [] (vs ++ vs')) as [Hbe _]. rewrite Hbe in Hu, Hv.
    specialize (Hre v Hr). apply elem_of_list_lookup in Hre as [k' Hk'].
    assert (j = k') as -> by (eapply NoDup_lookup; [done|done|by apply lookup_app_l_Some]).
    apply lookup_lt_Some in Hk'. rewrite lookup_app_l in Hu by lia.
    destruct (lookup_in_range ds i) as [du Hdu]. { rewrite (ly_length _ _ _ Hly). lia. }
    exists du. by eapply (ly_path _ _ _ Hly).
  Qed.
End bfs.
