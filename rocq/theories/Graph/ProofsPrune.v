From Coq Require Import Sorted.
From stdpp Require Import list list_numbers.
From Verif.Base Require Import Outcome ListLemmas.
From Verif.Graph Require Import Model ModelWeighted Spec SpecWeighted ModelTree SpecTree ProofsBase ProofsInduced.
Local Open Scope res_scope.

(** *** Increasing lists *)

Local Notation increasing := (StronglySorted lt).

Lemma increasing_NoDup K : increasing K -> NoDup K.
Proof.
  induction 1 as [|x K _ IH Hx]; [constructor|]. constructor; [|done]. intros Hin. rewrite Forall_forall in Hx.
  specialize (Hx x Hin). lia.
Qed.

Lemma increasing_seq a n : increasing (seq a n).
Proof.
  revert a. induction n as [|n IH]; intros a; cbn; constructor; [apply IH|]. apply Forall_forall. intros x Hx.
  apply elem_of_seq in Hx. lia.
Qed.

Lemma increasing_eq K K' : increasing K -> increasing K' -> (forall x, x ∈ K <-> x ∈ K') -> K = K'.
Proof.
  intros H. revert K'. induction H as [|x K HK IH Hx]; intros K' H' He.
  - destruct K' as [|y K']; [done|]. exfalso. assert (y ∈ []) by (apply He; left). by apply elem_of_nil in H.
  - destruct H' as [|y K' HK' Hy]. { exfalso. assert (x ∈ []) by (apply He; left). by apply elem_of_nil in H. }
    rewrite Forall_forall in Hx, Hy.
    assert (x = y).
    { assert (H1 : x ∈ y :: K') by (apply He; left). assert (H2 : y ∈ x :: K) by (apply He; left).
      apply elem_of_cons in H1 as [?|H1]; [done|]. apply elem_of_cons in H2 as [?|H2]; [done|].
      specialize (Hx _ H2). specialize (Hy _ H1). lia. }
    subst y. f_equal. apply IH; [done|]. intros z. split; intros Hz.
    + assert (Hz' : z ∈ x :: K') by (apply He; by right). apply elem_of_cons in Hz' as [->|?]; [|done]. specialize (Hx _ Hz). lia.
    + assert (Hz' : z ∈ x :: K) by (apply He; by right). apply elem_of_cons in Hz' as [->|?]; [|done]. specialize (Hy _ Hz). lia.
Qed.

Lemma increasing_filter (P : nat -> Prop) `{!forall x, Decision (P x)} K : increasing K -> increasing (filter P K).
Proof.
  induction 1 as [|x K _ IH Hx]; [constructor|]. rewrite filter_cons. destruct (decide (P x)); [|done].
  constructor; [done|]. rewrite Forall_forall in Hx |- *. intros y Hy. apply Hx. by apply elem_of_list_filter in Hy as [_ ?].
Qed.

Lemma increasing_delete K n : increasing K -> increasing (delete n K).
Proof.
  intros H. revert n. induction H as [|x K HK IH Hx]; intros [|n]; cbn; [constructor|constructor|done|].
  constructor; [apply IH|]. rewrite Forall_forall in Hx |- *. intros y Hy. apply Hx. eapply elem_of_submseteq; [exact Hy|].
  apply sublist_submseteq, sublist_delete.
Qed.

Lemma increasing_index K n q : increasing K -> K !! n = Some q -> n = length (filter (fun x => x < q) K).
Proof.
  intros H. revert n. induction H as [|x K HK IH Hx]; intros [|n] Hn; [done|done|..]; rewrite Forall_forall in Hx.
  - injection Hn as ->. rewrite filter_cons, decide_False by lia.
    assert (Hnil : filter (fun x => x < q) K = []).
    { apply elem_of_nil_inv. intros y Hy. apply elem_of_list_filter in Hy as [H1 H2]. specialize (Hx _ H2). lia. }
    by rewrite Hnil.
  - cbn in Hn. rewrite filter_cons, decide_True by (apply Hx; by eapply elem_of_list_lookup_2). cbn. f_equal. by apply IH.
Qed.

(** What comes before stays where it is. *)
Lemma increasing_keep K K' n q :
  increasing K -> increasing K' -> K !! n = Some q -> (forall x, x <= q -> x ∈ K <-> x ∈ K') -> K' !! n = Some q.
Proof.
  intros H H' Hn He. assert (Hq : q ∈ K') by (apply He; [done|by eapply elem_of_list_lookup_2]).
  apply elem_of_list_lookup in Hq as [n' Hn']. assert (n = n') as ->; [|done].
  rewrite (increasing_index K n q H Hn), (increasing_index K' n' q H' Hn'). f_equal.
  apply increasing_eq; [by apply increasing_filter..|]. intros x. rewrite !elem_of_list_filter. split; intros [? ?]; (split; [done|]); by apply He; [lia|].
Qed.

Lemma filter_shorter {A} (P Q : A -> Prop) `{!forall x, Decision (P x), !forall x, Decision (Q x)} (l : list A) x :
  (forall y, y ∈ l -> P y -> Q y) -> x ∈ l -> Q x -> ~ P x -> length (filter P l) < length (filter Q l).
Proof.
  intros Hpq. assert (Hle : forall k, (forall y, y ∈ k -> P y -> Q y) -> length (filter P k) <= length (filter Q k)).
  { clear. induction k as [|y k IH]; intros H'; [done|]. rewrite !filter_cons.
    assert (length (filter P k) <= length (filter Q k)) by (apply IH; intros z Hz; apply H'; by right).
    destruct (decide (P y)) as [Hp|], (decide (Q y)) as [Hq|Hq]; cbn; try lia. exfalso. apply Hq, H'; [left|done]. }
  induction l as [|y l IH]; intros Hx Hq Hp; [by apply elem_of_nil in Hx|]. rewrite !filter_cons.
  assert (Hpq' : forall y, y ∈ l -> P y -> Q y) by (intros z Hz; apply Hpq; by right).
  apply elem_of_cons in Hx as [->|Hx].
  - destruct (decide (P y)); [done|]. destruct (decide (Q y)); [|done]. cbn. specialize (Hle l Hpq'). lia.
  - specialize (IH Hpq' Hx Hq Hp). destruct (decide (P y)) as [Hp'|], (decide (Q y)) as [Hq'|Hq']; cbn; try lia.
    exfalso. apply Hq', Hpq; [left|done].
Qed.

(** *** Ancestors *)

Section ancestors.
  Context (ps : list (option nat)).

  Lemma anc_lt n a : anc ps n a -> n < length ps.
  Proof. destruct 1 as [|n p a Hp _]; [done|]. by apply lookup_lt_Some in Hp. Qed.

  Lemma anc_top_lt n a : anc ps n a -> a < length ps.
  Proof. by induction 1. Qed.

  Lemma anc_trans x y z : anc ps x y -> anc ps y z -> anc ps x z.
  Proof. induction 1 as [|n p a Hp _ IH]; [done|]. intros H. eapply anc_up; [exact Hp|by apply IH]. Qed.

  Lemma anc_child x q : anc ps x q -> x <> q -> exists c, ps !! c = Some (Some q) /\ anc ps x c.
  Proof.
    induction 1 as [|n p a Hp Ha IH]; intros Hne; [done|]. destruct (decide (p = a)) as [->|Hpa].
    - exists n. split; [done|]. apply anc_refl. by apply lookup_lt_Some in Hp.
    - destruct (IH Hpa) as (c & Hc & Hac). exists c. split; [done|]. by eapply anc_up.
  Qed.

  Lemma anc_le x a : ordered ps -> anc ps x a -> a <= x.
  Proof. intros Ho. induction 1 as [|n p a Hp _ IH]; [done|]. specialize (Ho _ _ Hp). lia. Qed.

  Definition up_closed (K : list nat) : Prop := forall x p, x ∈ K -> ps !! x = Some (Some p) -> p ∈ K.

  Lemma up_closed_anc K x a : up_closed K -> x ∈ K -> anc ps x a -> a ∈ K.
  Proof. intros HK Hx Ha. revert Hx. induction Ha as [|n p a Hp _ IH]; [done|]. intros Hn. apply IH. by eapply HK. Qed.

  Lemma children_elem c q : c ∈ children_of ps q <-> ps !! c = Some (Some q).
  Proof.
    unfold children_of. rewrite elem_of_list_filter, elem_of_seq. split; [by intros [? _]|]. intros H. split; [done|].
    apply lookup_lt_Some in H. lia.
  Qed.

  Lemma parent_valid : tree_shaped ps -> forall x p, ps !! x = Some (Some p) -> p < length ps.
  Proof.
    intros [->|(r & Hr & Hall)] x p Hx; [done|]. assert (Hlt : x < length ps) by by apply lookup_lt_Some in Hx.
    specialize (Hall x Hlt). destruct Hall as [n Hn|n q a Hq Ha]; [congruence|]. assert (q = p) as -> by congruence. by apply anc_lt in Ha.
  Qed.

  Lemma ordered_root : tree_shaped ps -> ordered ps -> ps = [] \/ (ps !! 0 = Some None /\ forall n, n < length ps -> anc ps n 0).
  Proof.
    intros [->|(r & Hr & Hall)] Ho; [by left|right]. assert (H0 : anc ps 0 r) by (apply Hall; apply lookup_lt_Some in Hr; lia).
    apply anc_le in H0; [|done]. assert (r = 0) as -> by lia. done.
  Qed.
End ancestors.

Section prune.
  Context {W V : Type} `{!EqDecision W}.
  Context (fl : flavour) (d : direction) (g0 : wgraph W V) (ps : list (option nat)).
  Context (Hrep : tree_rep d (edges g0) ps) (Hshape : tree_shaped ps).
  Implicit Types g : wgraph W V.

  (** [g] is what is left of [g0], its nodes being [K]. *)
  Record left_over (K : list nat) g : Prop := {
    lo_consistent : consistent fl g;
    lo_induced : w_induced fl K g0 g;
    lo_increasing : increasing K;
    lo_closed : up_closed ps K;
    lo_lt : forall x, x ∈ K -> x < length ps
  }.

  Lemma left_over_targets K g n q :
    left_over K g -> K !! n = Some q ->
    exists ts, targets n g = Ok ts
      /\ Forall2 (fun t y => K !! y = Some t) (filter (fun t => t ∈ K) (map tgt (row (edges g0) q))) ts.
  Proof.
    intros H Hn. destruct (lo_induced _ _ H) as [[Hl Hr] _]. assert (Hlt : n < order (edges g)).
    { unfold order. rewrite Hl. by apply lookup_lt_Some in Hn. }
    unfold targets. destruct (Nat.ltb_spec n (order (edges g))); [|lia]. rewrite rget_row by done. cbn [rbind].
    eexists. split; [done|]. specialize (Hr n q Hn).
    assert (Hf : filter (fun t => t ∈ K) (map tgt (row (edges g0) q)) = map tgt (filter (fun e => tgt e ∈ K) (row (edges g0) q))).
    { generalize (row (edges g0) q) as r. induction r as [|e r IH]; [done|]. cbn [map]. rewrite !filter_cons. destruct (decide (tgt e ∈ K)); cbn; by rewrite IH. }
    rewrite Hf. apply Forall2_fmap. eapply Forall2_impl; [exact Hr|]. by intros e y [? _].
  Qed.

  Lemma left_over_erase K g n q :
    left_over K g -> K !! n = Some q -> (forall x, x ∈ K -> ps !! x <> Some (Some q)) ->
    exists g', erase_node_w fl n g = Done g' /\ left_over (delete n K) g'.
  Proof.
    intros [H1 H2 H3 H4 H5] Hn Hno. pose proof (increasing_NoDup K H3) as Hd.
    destruct (erase_w_induced fl K g0 g n q H1 H2 Hd Hn) as (g' & He & Hc & Hi). exists g'. split; [done|].
    split; [done|done|by apply increasing_delete| |].
    - intros x p Hx Hp. apply (delete_elem K n q x Hd Hn) in Hx as [Hx Hne]. apply (delete_elem K n q p Hd Hn).
      split; [by eapply H4|]. intros ->. by eapply Hno.
    - intros x Hx. apply H5. by apply (delete_elem K n q x Hd Hn) in Hx as [Hx _].
  Qed.

  Lemma left_over_all : consistent fl g0 -> left_over (seq 0 (length ps)) g0.
  Proof.
    intros Hc. split; [done| |apply increasing_seq| |].
    - rewrite <- (proj1 Hrep). by apply w_induced_refl.
    - intros x p _ Hp. apply elem_of_seq. pose proof (parent_valid ps Hshape x p Hp). lia.
    - intros x Hx. apply elem_of_seq in Hx. lia.
  Qed.

  (** *** Down from the node *)

  Context (Hord : ordered ps) (Hpf : d = Symmetric -> parent_first (edges g0) ps) (Hd : d <> Backward).

  Definition above (q : nat) : list nat := match d with Symmetric => parent_of ps q | _ => [] end.

  Lemma row_shape q : q < length ps ->
    exists cs, map tgt (row (edges g0) q) = above q ++ cs /\ cs ≡ₚ children_of ps q.
  Proof.
    intros Hq. destruct Hrep as [_ Hr]. specialize (Hr q Hq). unfold above. destruct d; [by eexists|done|].
    unfold parent_of in *. destruct (ps !! q) as [[p|]|] eqn:Hp; [|by eexists..].
    specialize (Hpf eq_refl q p Hp). destruct (map tgt (row (edges g0) q)) as [|t ts]; [done|]. injection Hpf as ->.
    exists ts. split; [done|]. by apply Permutation_cons_inv in Hr.
  Qed.

  Definition visit_ok (visit : nat -> wgraph W V -> res (outcome W V)) (q : nat) : Prop :=
    forall K g n c, left_over K g -> K !! n = Some c -> q < c ->
      exists g' K', visit n g = Ok (Done g') /\ left_over K' g' /\ (forall x, x ∈ K' <-> x ∈ K /\ ~ anc ps x c).

  Lemma prune_edges_ok visit q fuel K g n :
    visit_ok visit q -> left_over K g -> K !! n = Some q ->
    length (filter (fun t => t ∈ K) (map tgt (row (edges g0) q))) <= fuel + length (above q) ->
    exists g' K', prune_edges fuel visit (length (above q)) n g = Ok (Done g') /\ left_over K' g' /\ K' !! n = Some q
      /\ (forall x, x ∈ K' <-> x ∈ K /\ ~ (exists c, ps !! c = Some (Some q) /\ anc ps x c)).
  Proof.
    intros Hv. revert K g. induction fuel as [|fuel IH]; intros K g H Hn Hf.
    all: assert (HqK : q ∈ K) by by eapply elem_of_list_lookup_2.
    all: destruct (row_shape q) as (cs & Hcs & Hperm); [by apply (lo_lt _ _ H)|].
    all: destruct (left_over_targets K g n q H Hn) as (ts & Hts & Hall).
    all: assert (Habove : filter (fun t => t ∈ K) (above q) = above q).
    all: try (unfold above, parent_of; destruct d; [done|done|]; destruct (ps !! q) as [[p|]|] eqn:Hp; [|done|done];
              rewrite filter_cons, decide_True; [done|]; by eapply (lo_closed _ _ H)).
    all: rewrite Hcs, list.filter_app, Habove in Hall, Hf.
    all: pose proof (Forall2_length _ _ _ Hall) as Hlen; rewrite app_length in Hlen, Hf.
    all: assert (Hdone : filter (fun t => t ∈ K) cs = [] ->
           forall x, x ∈ K <-> x ∈ K /\ ~ (exists c, ps !! c = Some (Some q) /\ anc ps x c)).
    all: try (intros Hnil x; split; [|tauto]; intros Hx; split; [done|]; intros (c & Hc & Hxc);
              assert (HcK : c ∈ K) by (by eapply up_closed_anc; [apply (lo_closed _ _ H)|exact Hx|]);
              assert (Hin : c ∈ filter (fun t => t ∈ K) cs) by
                (apply elem_of_list_filter; split; [done|]; rewrite Hperm; by apply children_elem);
              rewrite Hnil in Hin; by apply elem_of_nil in Hin).
    - assert (Hnil : filter (fun t => t ∈ K) cs = []) by (apply nil_length_inv; lia).
      cbn [prune_edges]. rewrite Hts. destruct (Nat.ltb_spec (length (above q)) (length ts)); [rewrite Hnil in Hlen; cbn in Hlen; lia|].
      exists g, K. split; [done|]. split; [done|]. split; [done|]. by apply Hdone.
    - cbn [prune_edges]. rewrite Hts. destruct (Nat.ltb_spec (length (above q)) (length ts)) as [Hlt|Hge].
      2: { assert (Hnil : filter (fun t => t ∈ K) cs = []) by (apply nil_length_inv; lia).
           exists g, K. split; [done|]. split; [done|]. split; [done|]. by apply Hdone. }
      destruct (last ts) as [t|] eqn:Hlast; [|apply last_None in Hlast; subst ts; cbn in Hlt; lia].
      assert (Htc : exists c, K !! t = Some c /\ c ∈ filter (fun t => t ∈ K) cs).
      { apply last_Some in Hlast as [ts' ->]. destruct (last (filter (fun t => t ∈ K) cs)) as [c|] eqn:Hc.
        - apply last_Some in Hc as [cs' Hcs']. rewrite Hcs', app_assoc in Hall.
          apply Forall2_app_inv in Hall as [_ Hc]; [|rewrite Hcs', !app_length in Hlen; cbn in Hlen; rewrite app_length; lia].
          exists c. apply Forall2_cons_1 in Hc as [Hc _]. split; [done|]. rewrite Hcs'. apply elem_of_app. right. left.
        - apply last_None in Hc. rewrite Hc in Hlen. cbn in Hlen. lia. }
      destruct Htc as (c & Htc & Hc). apply elem_of_list_filter in Hc as [HcK Hccs].
      assert (Hcq : ps !! c = Some (Some q)) by (rewrite Hperm in Hccs; by apply children_elem).
      specialize (Hord _ _ Hcq) as Hqc.
      destruct (Hv K g t c H Htc Hqc) as (g1 & K1 & Hv1 & H1 & Hm1). rewrite Hv1. cbn [obind].
      assert (Hn1 : K1 !! n = Some q).
      { eapply increasing_keep; [apply (lo_increasing _ _ H)|apply (lo_increasing _ _ H1)|done|]. intros x Hx.
        rewrite Hm1. split; [|tauto]. intros HxK. split; [done|]. intros Ha. apply anc_le in Ha; [lia|done]. }
      destruct (IH K1 g1 H1 Hn1) as (g' & K' & Hp & H' & Hn' & Hm').
      { rewrite Hcs, list.filter_app, app_length. assert (Hsh : length (filter (fun t => t ∈ K1) cs) < length (filter (fun t => t ∈ K) cs)).
        { apply (filter_shorter _ _ cs c); [|done|done|].
          - intros y _ Hy. by apply Hm1 in Hy as [? _].
          - rewrite Hm1. intros [_ Hna]. apply Hna, anc_refl. by apply lookup_lt_Some in Hcq. }
        assert (Hab : length (filter (fun t => t ∈ K1) (above q)) <= length (above q)) by apply filter_length. lia. }
      exists g', K'. split; [done|]. split; [done|]. split; [done|]. intros x. rewrite Hm', Hm1. split.
      + intros [[HxK _] Hno]. done.
      + intros [HxK Hno]. split; [|done]. split; [done|]. intros Ha. apply Hno. by exists c.
  Qed.

  Lemma prune_down_ok fuel K g n q :
    left_over K g -> K !! n = Some q -> length ps < q + fuel ->
    exists g' K', prune_down fuel fl d n g = Ok (Done g') /\ left_over K' g' /\ (forall x, x ∈ K' <-> x ∈ K /\ ~ anc ps x q).
  Proof.
    revert K g n q. induction fuel as [|fuel IH]; intros K g n q H Hn Hf.
    { assert (q < length ps) by (apply (lo_lt _ _ H); by eapply elem_of_list_lookup_2). lia. }
    cbn [prune_down]. assert (HqK : q ∈ K) by by eapply elem_of_list_lookup_2. assert (Hq : q < length ps) by by apply (lo_lt _ _ H).
    assert (Hkeep : (match d with Symmetric => if n =? 0 then 0 else 1 | _ => 0 end) = length (above q)).
    { unfold above. destruct d; [done|done|]. destruct (ordered_root ps Hshape Hord) as [->|[H0 Ha]]; [cbn in Hq; lia|].
      assert (H0K : 0 ∈ K) by (by eapply up_closed_anc; [apply (lo_closed _ _ H)|exact HqK|apply Ha]).
      apply elem_of_list_lookup in H0K as [i Hi]. pose proof (increasing_index K i 0 (lo_increasing _ _ H) Hi) as Hii.
      assert (i = 0) as ->.
      { rewrite Hii. assert (Hnil : filter (fun x => x < 0) K = []); [|by rewrite Hnil].
        apply elem_of_nil_inv. intros y Hy. apply elem_of_list_filter in Hy as [Hy _]. lia. }
      unfold parent_of. destruct (Nat.eqb_spec n 0) as [->|Hn0].
      - assert (q = 0) as -> by congruence. by rewrite H0.
      - destruct (ps !! q) as [[p|]|] eqn:Hp; [done| |apply lookup_ge_None in Hp; lia].
        exfalso. assert (Hq0 : q <> 0). { intros ->. apply Hn0. eapply NoDup_lookup; [apply increasing_NoDup, (lo_increasing _ _ H)|done|done]. }
        specialize (Ha q Hq). destruct Ha as [|? ? ? Hp']; [done|congruence]. }
    rewrite Hkeep.
    assert (Hv : visit_ok (prune_down fuel fl d) q).
    { intros K1 g1 n1 c H1 Hn1 Hqc. apply (IH K1 g1 n1 c H1 Hn1). lia. }
    destruct (prune_edges_ok _ q (order (edges g)) K g n Hv H Hn) as (g1 & K1 & Hp1 & H1 & Hn1 & Hm1).
    { destruct (row_shape q Hq) as (cs & Hcs & Hperm). rewrite Hcs, list.filter_app, app_length.
      pose proof (filter_length (fun t => t ∈ K) (above q)) as Hab.
      assert (length (filter (fun t => t ∈ K) cs) <= order (edges g)); [|lia].
      rewrite (w_induced_order _ _ _ _ (lo_induced _ _ H)). apply submseteq_length, NoDup_submseteq.
      - apply NoDup_filter. rewrite Hperm. unfold children_of. apply NoDup_filter, NoDup_seq.
      - intros x Hx. by apply elem_of_list_filter in Hx as [? _]. }
    rewrite Hp1. cbn [obind].
    destruct (left_over_erase K1 g1 n q H1 Hn1) as (g2 & He & H2).
    { intros x Hx Hp. apply Hm1 in Hx as [Hx Hno]. apply Hno. exists x. split; [done|]. apply anc_refl. by apply (lo_lt _ _ H). }
    rewrite He. exists g2, (delete n K1). split; [done|]. split; [done|]. intros x.
    rewrite (delete_elem K1 n q x (increasing_NoDup _ (lo_increasing _ _ H1)) Hn1), Hm1. split.
    - intros [[Hx Hno] Hne]. split; [done|]. intros Ha. apply Hno. by apply anc_child.
    - intros [Hx Hna]. split; [split; [done|]|].
      + intros (c & Hc & Hxc). apply Hna. eapply anc_trans; [exact Hxc|]. eapply anc_up; [exact Hc|]. by apply anc_refl.
      + intros ->. apply Hna. by apply anc_refl.
  Qed.
End prune.
