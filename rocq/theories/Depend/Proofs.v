(** The graph of the dependencies and the times of its nodes. *)
From Coq Require Import Ascii String.
From stdpp Require Import list list_numbers relations.
From Verif.Base Require Import Outcome Compare ListLemmas.
From Verif.Graph Require Import Model ModelTraverse Spec SpecTraverse ProofsBase ProofsPartial ProofsTraverseDfs ProofsTraversePost.
From Verif.Text Require Import Model.
From Verif.Includes Require Import Model Proofs.
From Verif.Depend Require Import Model Spec.
Local Notation length := List.length.

Definition has_edge (g : graph unit) (u v : nat) : Prop := exists e, e ∈ row g u /\ tgt e = v.

Lemma has_edge_join (g : graph unit) i j u v : i < length g ->
  has_edge (<[i := row g i ++ [Edge j 0 tt]]> g) u v <-> has_edge g u v \/ (u = i /\ v = j).
Proof.
  intros Hi. unfold has_edge. rewrite row_insert by done. destruct (decide (u = i)) as [-> |Hu].
  - split.
    + intros (e & [He|He%elem_of_list_singleton]%elem_of_app & <-); [left; by exists e|right]. by subst e.
    + intros [(e & He & <-)|[_ ->]]; eexists; (split; [apply elem_of_app|]).
      * by left. * done. * right. by apply elem_of_list_singleton. * done.
  - split; [by left|]. by intros [?|[? _]].
Qed.

Lemma in_range_join (g : graph unit) i j : in_range g -> i < length g -> j < length g -> in_range (<[i := row g i ++ [Edge j 0 tt]]> g).
Proof.
  intros Hg Hi Hj u e He. rewrite insert_length. assert (has_edge (<[i := row g i ++ [Edge j 0 tt]]> g) u (tgt e)) as H by (by exists e).
  apply has_edge_join in H as [(e' & He' & <-)|[_ ->]]; [by eapply Hg|done|done].
Qed.

Lemma find_node_files w f inc ns ns' : file <$> ns = file <$> ns' -> find_node w f inc ns = find_node w f inc ns'.
Proof.
  revert ns'. induction ns as [|n ns IH]; intros [|n' ns'] H; try done. cbn in H. injection H as H1 H2. cbn [find_node].
  by rewrite H1, (IH ns' H2).
Qed.

Lemma find_node_Some w f inc ns j : find_node w f inc ns = Some j -> exists n, ns !! j = Some n /\ file_name (file n) = file_name inc.
Proof.
  revert j. induction ns as [|n ns IH]; intros j H; cbn [find_node] in H; [done|].
  case_bool_decide as E; cbn [andb] in H.
  - destruct (is_included w f inc (file n)); [injection H as <-; by exists n|].
    destruct (find_node w f inc ns) as [k|]; [|done]. injection H as <-. by apply IH.
  - destruct (find_node w f inc ns) as [k|]; [|done]. injection H as <-. by apply IH.
Qed.

Lemma includes_of_ok w cutoff f : exists incs, includes_of w cutoff f = Ok incs.
Proof.
  unfold includes_of. destruct (get_includes_ok (print (parent_path f)) cutoff (contents w f)) as (ns & ls & _ & _ & H).
  rewrite H. by eexists.
Qed.

Lemma rget_some {A} (l : list A) i x : l !! i = Some x -> rget l i = Ok x.
Proof. unfold rget. by intros ->. Qed.

Section build.
  Context (w : project) (cutoff : text) (prune : N) (ns0 : list info).

  Definition gives (s : nat) (inc : list text) (u v : nat) : Prop :=
    exists n, ns0 !! s = Some n /\ find_node w (file n) inc ns0 = Some v
      /\ (u = s \/ (u = S s /\ is_cpp (file n) = true /\ stem_of (file n) <> stem_of inc
                    /\ exists m, ns0 !! S s = Some m /\ stem_of (file m) = stem_of (file n))).
  Definition owns (s : nat) (inc : list text) (h : nat) : Prop :=
    exists n, ns0 !! s = Some n /\ find_node w (file n) inc ns0 = Some h /\ is_cpp (file n) = true /\ stem_of (file n) = stem_of inc.
  Definition has_include (s : nat) (inc : list text) : Prop :=
    exists n incs, ns0 !! s = Some n /\ includes_of w cutoff (file n) = Ok incs /\ inc ∈ incs.

  Hypothesis Hpair : forall s inc h n, has_include s inc -> owns s inc h -> ns0 !! h = Some n -> is_cpp (file n) = false.
  Hypothesis Hstale0 : forall n, n ∈ ns0 -> stale n = (prune <? time n)%N.

  Definition feeds (D : list (nat * list text)) (v u : nat) : Prop := v = u \/ exists inc, (v, inc) ∈ D /\ owns v inc u.

  Record inv (D : list (nat * list text)) (g : graph unit) (ns : list info) : Prop := {
    inv_length : length g = length ns0;
    inv_range : in_range g;
    inv_files : file <$> ns = file <$> ns0;
    inv_edges : forall u v, has_edge g u v <-> exists s inc, (s, inc) ∈ D /\ gives s inc u v;
    inv_time : forall u n, ns !! u = Some n -> exists v n0, feeds D v u /\ ns0 !! v = Some n0 /\ time n = time n0;
    inv_bound : forall u n v n0, ns !! u = Some n -> feeds D v u -> ns0 !! v = Some n0 -> (time n0 <= time n)%N;
    inv_stale : forall n, n ∈ ns -> stale n = (prune <? time n)%N
  }.

  Lemma same_length {ns : list info} : file <$> ns = file <$> ns0 -> length ns = length ns0.
  Proof. intros H. apply (f_equal length) in H. by rewrite !fmap_length in H. Qed.

  Lemma same_file {ns : list info} u n : file <$> ns = file <$> ns0 -> ns !! u = Some n -> exists n0, ns0 !! u = Some n0 /\ file n0 = file n.
  Proof.
    intros H Hn. apply (f_equal (.!! u)) in H. rewrite !list_lookup_fmap, Hn in H. cbn in H.
    destruct (ns0 !! u) as [n0|]; [|done]. injection H as H. by exists n0.
  Qed.

  Lemma same_file_inv {ns : list info} u n0 : file <$> ns = file <$> ns0 -> ns0 !! u = Some n0 -> exists n, ns !! u = Some n /\ file n = file n0.
  Proof.
    intros H Hn. apply (f_equal (.!! u)) in H. rewrite !list_lookup_fmap, Hn in H. cbn in H.
    destruct (ns !! u) as [n|]; [|done]. injection H as H. by exists n.
  Qed.

  Lemma edges_snoc D i inc u v : (exists s x, (s, x) ∈ D ++ [(i, inc)] /\ gives s x u v) <-> (exists s x, (s, x) ∈ D /\ gives s x u v) \/ gives i inc u v.
  Proof.
    split.
    - intros (s & x & [H|H%elem_of_list_singleton]%elem_of_app & Hg); [left; by exists s, x|]. injection H as -> ->. by right.
    - intros [(s & x & H & Hg)|Hg]; [exists s, x|exists i, inc]; (split; [|done]); apply elem_of_app; [by left|right]. by apply elem_of_list_singleton.
  Qed.

  Lemma feeds_snoc D i inc v u : feeds (D ++ [(i, inc)]) v u <-> feeds D v u \/ (v = i /\ owns i inc u).
  Proof.
    unfold feeds. split.
    - intros [-> |(x & [H|H%elem_of_list_singleton]%elem_of_app & Ho)]; [left; by left|left; right; by exists x|]. injection H as -> ->. by right.
    - intros [[-> |(x & H & Ho)]|[-> Ho]]; [by left|right; exists x|right; exists inc]; (split; [|done]); apply elem_of_app; [by left|right].
      by apply elem_of_list_singleton.
  Qed.

  Lemma add_include_inv D g ns i inc n0 :
    inv D g ns -> (forall s x, (s, x) ∈ D -> has_include s x) -> ns0 !! i = Some n0 -> has_include i inc ->
    exists g' ns', add_include w i (file n0) inc g ns = Ok (g', ns') /\ inv (D ++ [(i, inc)]) g' ns'.
  Proof.
    intros [Hlen Hrange Hfiles Hedges Htime Hbound Hstale] HD Hi Hinc. unfold add_include.
    rewrite (find_node_files w (file n0) inc ns ns0 Hfiles).
    pose proof (same_length Hfiles) as Hns. pose proof (lookup_lt_Some _ _ _ Hi) as Hi'.
    destruct (find_node w (file n0) inc ns0) as [j|] eqn:Hj.
    2:{ exists g, ns. split; [done|].
        assert (forall u v, ~ gives i inc u v) as Hng. { intros u v (n & Hn & Hf & _). rewrite Hi in Hn. injection Hn as <-. congruence. }
        assert (forall u, ~ owns i inc u) as Hno. { intros u (n & Hn & Hf & _). rewrite Hi in Hn. injection Hn as <-. congruence. }
        split; [done|done|done| | | |done].
        - intros u v. rewrite edges_snoc, Hedges. naive_solver.
        - intros u n Hn. destruct (Htime u n Hn) as (v & m & Hf & Hm). exists v, m. split; [|done]. apply feeds_snoc. by left.
        - intros u n v m Hn [Hf|[_ Ho]]%feeds_snoc; [by eapply Hbound|by apply Hno in Ho]. }
    destruct (find_node_Some _ _ _ _ _ Hj) as (nj & Hnj & Hname). pose proof (lookup_lt_Some _ _ _ Hnj) as Hj'.
    rewrite (join_directed i j tt g) by lia. cbn [rbind].
    assert (Hstem : stem_of (file nj) = stem_of inc) by (unfold stem_of; by rewrite Hname).
    assert (Hown : forall u, owns i inc u <-> u = j /\ is_cpp (file n0) = true /\ stem_of (file n0) = stem_of inc).
    { intros u. split.
      - intros (n & Hn & Hf & Hc & Hs). rewrite Hi in Hn. injection Hn as <-. rewrite Hj in Hf. by injection Hf as <-.
      - intros (-> & Hc & Hs). by exists n0. }
    assert (Hgive : forall u v, gives i inc u v <-> v = j /\ (u = i \/ (u = S i /\ is_cpp (file n0) = true /\ stem_of (file n0) <> stem_of inc
        /\ exists m, ns0 !! S i = Some m /\ stem_of (file m) = stem_of (file n0)))).
    { intros u v. split.
      - intros (n & Hn & Hf & Hc). rewrite Hi in Hn. injection Hn as <-. rewrite Hj in Hf. by injection Hf as <-.
      - intros (-> & Hc). by exists n0. }
    assert (Hplain : forall g', length g' = length ns0 -> in_range g' -> (forall u, ~ owns i inc u) ->
        (forall u v, has_edge g' u v <-> has_edge g u v \/ gives i inc u v) -> inv (D ++ [(i, inc)]) g' ns).
    { intros g' Hl' Hr' Hno He'. split; [done|done|done| | | |done].
      - intros u v. by rewrite edges_snoc, He', Hedges.
      - intros u n Hn. destruct (Htime u n Hn) as (v & m & Hf & Hm). exists v, m. split; [|done]. apply feeds_snoc. by left.
      - intros u n v m Hn [Hf|[_ Ho]]%feeds_snoc; [by eapply Hbound|by apply Hno in Ho]. }
    destruct (is_cpp (file n0)) eqn:Hcpp.
    - destruct (decide (stem_of (file n0) = stem_of inc)) as [Hs|Hs].
      + destruct (same_file_inv i n0 Hfiles Hi) as (a & Ha & Haf). destruct (same_file_inv j nj Hfiles Hnj) as (b & Hb & Hbf).
        rewrite (rget_some _ _ _ Ha), (rget_some _ _ _ Hb). cbn [rbind]. unfold rset. rewrite Hb. cbn [rbind].
        eexists _, _. split; [done|].
        assert (Hta : time a = time n0).
        { destruct (Htime i a Ha) as (v & m & [-> |(x & Hx & Ho)] & Hm & ->); [congruence|].
          pose proof (Hpair v x i n0 (HD _ _ Hx) Ho Hi) as Hf. congruence. }
        split.
        * by rewrite insert_length.
        * apply in_range_join; [done|lia|lia].
        * rewrite list_fmap_insert. cbn [file]. rewrite list_insert_id; [done|]. by rewrite list_lookup_fmap, Hb.
        * intros u v. rewrite edges_snoc, has_edge_join by lia. rewrite Hedges, Hgive. naive_solver.
        * intros u n Hn. destruct (decide (u = j)) as [-> |Hu].
          -- rewrite list_lookup_insert in Hn by lia. injection Hn as <-. cbn [time].
             destruct (N.max_spec (time a) (time b)) as [[_ ->]|[_ ->]].
             ++ destruct (Htime j b Hb) as (v & m & Hf & Hm). exists v, m. split; [|done]. apply feeds_snoc. by left.
             ++ exists i, n0. split; [|done]. apply feeds_snoc. right. split; [done|]. by apply Hown.
          -- rewrite list_lookup_insert_ne in Hn by done. destruct (Htime u n Hn) as (v & m & Hf & Hm). exists v, m. split; [|done].
             apply feeds_snoc. by left.
        * intros u n v m Hn Hf Hm. destruct (decide (u = j)) as [-> |Hu].
          -- rewrite list_lookup_insert in Hn by lia. injection Hn as <-. cbn [time].
             apply feeds_snoc in Hf as [Hf|[-> _]].
             ++ pose proof (Hbound _ _ _ _ Hb Hf Hm). lia.
             ++ assert (m = n0) by congruence. subst m. lia.
          -- rewrite list_lookup_insert_ne in Hn by done. apply feeds_snoc in Hf as [Hf|[_ Ho]]; [by eapply Hbound|].
             apply Hown in Ho as [Ho _]. done.
        * intros n Hn. apply elem_of_list_lookup in Hn as [u Hn]. destruct (decide (u = j)) as [-> |Hu].
          -- rewrite list_lookup_insert in Hn by lia. injection Hn as <-. cbn [time stale].
             rewrite (Hstale a), (Hstale b) by (by eapply elem_of_list_lookup_2).
             destruct (N.ltb_spec prune (time a)), (N.ltb_spec prune (time b)), (N.ltb_spec prune (N.max (time a) (time b))); cbn; lia || done.
          -- rewrite list_lookup_insert_ne in Hn by done. apply Hstale. by eapply elem_of_list_lookup_2.
      + assert (forall u, ~ owns i inc u) as Hno. { intros u Ho%Hown. naive_solver. }
        assert (Hlenj : forall k, length (<[k := row g k ++ [Edge j 0 tt]]> g) = length ns0) by (intros; by rewrite insert_length).
        destruct (ns !! S i) as [n|] eqn:Hn1.
        * destruct (same_file (S i) n Hfiles Hn1) as (m & Hm & Hmf). pose proof (lookup_lt_Some _ _ _ Hm) as Hsi.
          destruct (decide (stem_of (file n) = stem_of (file n0))) as [Hsn|Hsn].
          -- rewrite (join_directed (S i) j tt) by (rewrite ?Hlenj; lia). cbn [rbind]. eexists _, _. split; [done|].
             apply Hplain; [by rewrite !insert_length| |done|].
             ++ apply in_range_join; [apply in_range_join; [done|lia|lia]|rewrite Hlenj; lia|rewrite Hlenj; lia].
             ++ intros u v. rewrite has_edge_join by (rewrite Hlenj; lia). rewrite has_edge_join by lia. rewrite Hgive.
                split; [|naive_solver]. intros [[?|[-> ->]]|[-> ->]]; [by left|right; split; [done|by left]|].
                right. split; [done|]. right. repeat (split; [done|]). exists m. split; [done|]. by rewrite Hmf.
          -- eexists _, _. split; [done|]. apply Hplain; [done|apply in_range_join; [done|lia|lia]|done|].
             intros u v. rewrite has_edge_join by lia. rewrite Hgive. split; [naive_solver|].
             intros [?|(-> & [-> |(_ & _ & _ & m' & Hm' & Hsm)])]; [by left|by right|]. rewrite Hm in Hm'. injection Hm' as <-. rewrite Hmf in Hsm. done.
        * eexists _, _. split; [done|]. apply Hplain; [done|apply in_range_join; [done|lia|lia]|done|].
          intros u v. rewrite has_edge_join by lia. rewrite Hgive. split; [naive_solver|].
          intros [?|(-> & [-> |(_ & _ & _ & m' & Hm' & Hsm)])]; [by left|by right|].
          destruct (same_file_inv (S i) m' Hfiles Hm') as (m & Hm & _). congruence.
    - eexists _, _. split; [done|]. apply Hplain; [by rewrite insert_length|apply in_range_join; [done|lia|lia]|intros u Ho%Hown; naive_solver|].
      intros u v. rewrite has_edge_join by lia. rewrite Hgive. naive_solver.
  Qed.

  Lemma add_includes_inv incs D g ns i n0 :
    inv D g ns -> (forall s x, (s, x) ∈ D -> has_include s x) -> ns0 !! i = Some n0 -> (forall inc, inc ∈ incs -> has_include i inc) ->
    exists g' ns', add_includes w i (file n0) incs g ns = Ok (g', ns') /\ inv (D ++ map (pair i) incs) g' ns'.
  Proof.
    revert D g ns. induction incs as [|inc incs IH]; intros D g ns Hinv HD Hi Hincs; cbn [add_includes map].
    { rewrite app_nil_r. by exists g, ns. }
    destruct (add_include_inv D g ns i inc n0 Hinv HD Hi) as (g' & ns' & -> & Hinv'); [apply Hincs; left|]. cbn [rbind fst snd].
    rewrite cons_middle, app_assoc. apply IH; [done| |done|intros; apply Hincs; by right].
    intros s x [H|H%elem_of_list_singleton]%elem_of_app; [by apply HD|]. injection H as -> ->. apply Hincs. left.
  Qed.

  Lemma build_inv is D g ns :
    inv D g ns -> (forall s x, (s, x) ∈ D -> has_include s x) -> (forall i, i ∈ is -> i < length ns0) ->
    exists g' ns' D', build_dependencies w cutoff is g ns = Ok (g', ns') /\ inv D' g' ns'
      /\ forall s x, (s, x) ∈ D' <-> (s, x) ∈ D \/ (s ∈ is /\ has_include s x).
  Proof.
    revert D g ns. induction is as [|i is IH]; intros D g ns Hinv HD His; cbn [build_dependencies].
    { exists g, ns, D. split; [done|]. split; [done|]. intros s x. split; [by left|]. intros [?|[[]%elem_of_nil _]]. done. }
    destruct (lookup_lt_is_Some_2 ns0 i) as [n0 Hi]; [apply His; left|].
    destruct (same_file_inv i n0 (inv_files _ _ _ Hinv) Hi) as (n & Hn & Hf). rewrite (rget_some _ _ _ Hn). cbn [rbind].
    destruct (includes_of_ok w cutoff (file n0)) as [incs Hincs]. rewrite Hf, Hincs. cbn [rbind].
    assert (Hall : forall inc, inc ∈ incs <-> has_include i inc).
    { intros inc. split; [intros H; by exists n0, incs|]. intros (m & l & Hm & Hl & Hin). rewrite Hi in Hm. injection Hm as <-.
      rewrite Hincs in Hl. by injection Hl as <-. }
    destruct (add_includes_inv incs D g ns i n0 Hinv HD Hi) as (g' & ns' & -> & Hinv'); [intros; by apply Hall|]. cbn [rbind fst snd].
    assert (HD' : forall s x, (s, x) ∈ D ++ map (pair i) incs <-> (s, x) ∈ D \/ (s = i /\ has_include i x)).
    { intros s x. rewrite elem_of_app, elem_of_list_fmap. split.
      - intros [?|(y & [= -> ->] & Hy)]; [by left|right]. split; [done|]. by apply Hall.
      - intros [?|[-> Hx]]; [by left|right]. exists x. split; [done|]. by apply Hall. }
    destruct (IH _ g' ns' Hinv') as (g2 & ns2 & D2 & H2 & Hinv2 & HD2).
    { intros s x [?|[-> ?]]%HD'; [by apply HD|done]. }
    { intros k Hk. apply His. by right. }
    exists g2, ns2, D2. split; [done|]. split; [done|]. intros s x. rewrite HD2, HD', elem_of_cons. naive_solver.
  Qed.

  Lemma row_replicate k u : row (replicate k [] : graph unit) u = [].
  Proof. unfold row. destruct (replicate k [] !! u) as [r|] eqn:H; [|done]. apply lookup_replicate in H as [-> _]. done. Qed.

  Lemma make_graph_inv : exists g ns D, make_graph w cutoff ns0 = Ok (g, ns) /\ inv D g ns
    /\ forall s x, (s, x) ∈ D <-> has_include s x.
  Proof.
    destruct (build_inv (seq 0 (length ns0)) [] (replicate (length ns0) []) ns0) as (g & ns & D & H & Hinv & HD).
    - split.
      + by rewrite replicate_length.
      + intros u e He. rewrite row_replicate in He. by apply elem_of_nil in He.
      + done.
      + intros u v. split.
        * intros (e & He & _). rewrite row_replicate in He. by apply elem_of_nil in He.
        * intros (s & x & Hs & _). by apply elem_of_nil in Hs.
      + intros u n Hn. exists u, n. split; [by left|done].
      + intros u n v n0 Hn [-> |(x & Hx & _)] Hn0; [|by apply elem_of_nil in Hx]. assert (n = n0) as -> by congruence. done.
      + done.
    - intros s x Hs. by apply elem_of_nil in Hs.
    - intros i Hi%elem_of_seq. lia.
    - exists g, ns, D. split; [done|]. split; [done|]. intros s x. rewrite HD, elem_of_seq, elem_of_nil. split; [naive_solver|].
      intros Hx. right. split; [|done]. destruct Hx as (n & _ & Hn & _). apply lookup_lt_Some in Hn. lia.
  Qed.
End build.

(** ** The times after the traversal *)

Section late.
  Context (prune : N) (g : graph unit).

  Record later (ns ns' : list info) : Prop := {
    later_files : file <$> ns' = file <$> ns;
    later_time : forall u n n', ns !! u = Some n -> ns' !! u = Some n' -> (time n <= time n')%N;
    later_from : forall u n', ns' !! u = Some n' -> exists v n, rtc (has_edge g) u v /\ ns !! v = Some n /\ time n' = time n;
    later_stale : (forall n, n ∈ ns -> stale n = (prune <? time n)%N) -> forall n, n ∈ ns' -> stale n = (prune <? time n)%N
  }.

  Lemma later_refl ns : later ns ns.
  Proof.
    split; [done| | |done].
    - intros u n n' H H'. assert (n = n') as -> by congruence. done.
    - intros u n H. exists u, n. split; [constructor|done].
  Qed.

  Lemma later_trans ns1 ns2 ns3 : later ns1 ns2 -> later ns2 ns3 -> later ns1 ns3.
  Proof.
    intros H1 H2. split.
    - rewrite (later_files _ _ H2). apply (later_files _ _ H1).
    - intros u n n' Hn Hn'. destruct (same_file ns2 u n' (later_files _ _ H2) Hn') as (m & Hm & _).
      pose proof (later_time _ _ H1 u n m Hn Hm). pose proof (later_time _ _ H2 u m n' Hm Hn'). lia.
    - intros u n' Hn'. destruct (later_from _ _ H2 u n' Hn') as (v & m & Hv & Hm & ->).
      destruct (later_from _ _ H1 v m Hm) as (x & n & Hx & Hn & ->). exists x, n. split; [by etrans|done].
    - intros H. apply (later_stale _ _ H2). by apply (later_stale _ _ H1).
  Qed.

  Lemma late_step ns n a b v : ns !! n = Some a -> ns !! v = Some b -> has_edge g n v ->
    later ns (<[n := Info (file a) (N.max (time a) (time b)) (stale a || stale b)]> ns).
  Proof.
    intros Ha Hb He. pose proof (lookup_lt_Some _ _ _ Ha) as Hn. split.
    - rewrite list_fmap_insert. cbn [file]. rewrite list_insert_id; [done|]. by rewrite list_lookup_fmap, Ha.
    - intros u x x' Hx Hx'. destruct (decide (u = n)) as [-> |Hu].
      + rewrite list_lookup_insert in Hx' by done. injection Hx' as <-. assert (x = a) as -> by congruence. cbn. lia.
      + rewrite list_lookup_insert_ne in Hx' by done. assert (x = x') as -> by congruence. done.
    - intros u x' Hx'. destruct (decide (u = n)) as [-> |Hu].
      + rewrite list_lookup_insert in Hx' by done. injection Hx' as <-. cbn [time].
        destruct (N.max_spec (time a) (time b)) as [[_ ->]|[_ ->]].
        * exists v, b. split; [by apply rtc_once|done].
        * exists n, a. split; [constructor|done].
      + rewrite list_lookup_insert_ne in Hx' by done. exists u, x'. split; [constructor|done].
    - intros Hs x Hx. apply elem_of_list_lookup in Hx as [u Hx]. destruct (decide (u = n)) as [-> |Hu].
      + rewrite list_lookup_insert in Hx by done. injection Hx as <-. cbn [time stale].
        rewrite (Hs a), (Hs b) by (by eapply elem_of_list_lookup_2).
        destruct (N.ltb_spec prune (time a)), (N.ltb_spec prune (time b)), (N.ltb_spec prune (N.max (time a) (time b))); cbn; lia || done.
      + rewrite list_lookup_insert_ne in Hx by done. apply Hs. by eapply elem_of_list_lookup_2.
  Qed.

  Lemma late_edges_ok n es ns : n < length ns -> (forall e, e ∈ es -> tgt e < length ns /\ has_edge g n (tgt e)) ->
    exists ns', late_edges n es ns = Ok ns' /\ later ns ns' /\ (forall u, u <> n -> ns' !! u = ns !! u)
      /\ forall e x y, e ∈ es -> ns' !! n = Some x -> ns !! tgt e = Some y -> (time y <= time x)%N.
  Proof.
    revert ns. induction es as [|e es IH]; intros ns Hn Hes; cbn [late_edges].
    { exists ns. split; [done|]. split; [apply later_refl|]. split; [done|]. by intros e x y []%elem_of_nil. }
    destruct (Hes e) as [Ht He]; [left|]. destruct (lookup_lt_is_Some_2 ns n Hn) as [a Ha]. destruct (lookup_lt_is_Some_2 ns (tgt e) Ht) as [b Hb].
    rewrite (rget_some _ _ _ Ha), (rget_some _ _ _ Hb). cbn [rbind]. unfold rset. rewrite Ha. cbn [rbind].
    set (ns1 := <[n := _]> ns). assert (length ns1 = length ns) as Hl by apply insert_length.
    assert (later ns ns1) as H1 by (by apply (late_step ns n a b (tgt e))).
    destruct (IH ns1) as (ns' & H' & Hlater & Hsame & Hmax).
    { lia. } { intros e' He'. rewrite Hl. apply Hes. by right. }
    exists ns'. split; [done|]. split; [by eapply later_trans|]. split.
    - intros u Hu. rewrite Hsame by done. unfold ns1. by rewrite list_lookup_insert_ne.
    - intros e' x y He' Hx Hy. apply elem_of_cons in He' as [-> |He'].
      + assert (ns1 !! n = Some (Info (file a) (N.max (time a) (time b)) (stale a || stale b))) as Hn1 by (by apply list_lookup_insert).
        pose proof (later_time _ _ Hlater n _ x Hn1 Hx) as Hle. cbn in Hle. assert (y = b) as -> by congruence. lia.
      + destruct (decide (tgt e' = n)) as [E|E].
        * rewrite E in Hy. assert (later ns ns') as Ht' by (by eapply later_trans). apply (later_time _ _ Ht' n); [done|done].
        * apply (Hmax e'); [done|done|]. unfold ns1. by rewrite list_lookup_insert_ne.
  Qed.

  Hypothesis Hrange : in_range g.

  Lemma late_nodes_ok l ns : length ns = length g -> (forall n, n ∈ l -> n < length g) ->
    exists ns', late_nodes g l ns = Ok ns' /\ later ns ns' /\ (forall u, u ∉ l -> ns' !! u = ns !! u)
      /\ forall a u b v x y, NoDup l -> l = a ++ u :: b -> v ∉ u :: b -> has_edge g u v -> ns' !! u = Some x -> ns' !! v = Some y -> (time y <= time x)%N.
  Proof.
    revert ns. induction l as [|n l IH]; intros ns Hl Hn; cbn [late_nodes].
    { exists ns. split; [done|]. split; [apply later_refl|]. split; [done|]. by intros [|? a] u b v x y _ H. }
    assert (Hng : n < length g) by (apply Hn; left). rewrite (rget_row g n Hng). cbn [rbind].
    destruct (late_edges_ok n (row g n) ns) as (ns1 & -> & H1 & Hs1 & Hm1).
    { lia. } { intros e He. split; [rewrite Hl; by eapply Hrange|by exists e]. }
    cbn [rbind]. assert (length ns1 = length g) as Hl1.
    { rewrite <- Hl. pose proof (f_equal length (later_files _ _ H1)) as E. by rewrite !fmap_length in E. }
    destruct (IH ns1 Hl1) as (ns' & -> & H' & Hs' & Hm'); [intros; apply Hn; by right|].
    exists ns'. split; [done|]. split; [by eapply later_trans|]. split.
    - intros u [Hu1 Hu2]%not_elem_of_cons. rewrite Hs' by done. by apply Hs1.
    - intros [|k a] u b v x y Hnd E Hv He Hx Hy; cbn in E; injection E as <- El; apply NoDup_cons in Hnd as [Hn' Hnd].
      + subst b. apply not_elem_of_cons in Hv as [Hv1 Hv2]. rewrite Hs' in Hx, Hy by done. rewrite Hs1 in Hy by done.
        destruct He as (e & He & <-). by apply (Hm1 e).
      + by apply (Hm' a u b v).
  Qed.
End late.
