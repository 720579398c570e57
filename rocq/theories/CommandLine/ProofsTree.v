From stdpp Require Import list list_numbers.
From Verif.Base Require Import Outcome ListLemmas.
From Verif.Text Require Import Model.
From Verif.Graph Require Import Model ModelWeighted ModelTree ModelTraverse Spec SpecTree SpecTraverse SpecSpan ProofsPrune ProofsSpan.
From Verif.CommandLine Require Import Model Spec.
Local Open Scope res_scope.

(** *** Trees of operations *)

Lemma filter_iff_in {A} (P Q : A -> Prop) `{!forall x, Decision (P x), !forall x, Decision (Q x)} (l : list A) :
  (forall x, x ∈ l -> P x <-> Q x) -> filter P l = filter Q l.
Proof.
  induction l as [|x l IH]; intros Hpq; [done|]. rewrite !filter_cons, IH by (intros y Hy; apply Hpq; by right).
  destruct (decide (P x)) as [HP|HP], (decide (Q x)) as [HQ|HQ]; try done; exfalso; specialize (Hpq x ltac:(left)); tauto.
Qed.

Section trees.
  Context {E : Type}.
  Implicit Types L : list (option nat * operation E).

  Definition inside (ps : list (option nat)) : Prop := forall i p, ps !! i = Some (Some p) -> p < i.

  Definition holds (t : optree E) L : Prop := edges t = child_rows L.*1 /\ weights t = L.*2 /\ inside L.*1.

  Lemma children_snoc ps par n :
    children_of (ps ++ [par]) n = children_of ps n ++ (if decide (par = Some n) then [length ps] else []).
  Proof.
    unfold children_of. rewrite app_length. cbn [length]. rewrite seq_app, filter_app. f_equal.
    - apply filter_iff_in. intros x [_ Hx]%elem_of_seq. by rewrite lookup_app_l by lia.
    - cbn [seq Nat.add]. rewrite filter_cons, filter_nil, lookup_app_r, Nat.sub_diag by lia. cbn.
      destruct (decide (par = Some n)) as [->|H]; [by rewrite decide_True|]. rewrite decide_False; [done|congruence].
  Qed.

  Lemma children_lt ps n c : c ∈ children_of ps n -> c < length ps.
  Proof. intros H%children_elem. by apply lookup_lt_Some in H. Qed.

  Lemma children_beyond ps n : inside ps -> length ps <= n -> children_of ps n = [].
  Proof.
    intros Hi Hn. destruct (children_of ps n) as [|c l] eqn:E'; [done|]. exfalso.
    assert (Hc : ps !! c = Some (Some n)) by (apply children_elem; rewrite E'; left). pose proof (Hi _ _ Hc). apply lookup_lt_Some in Hc. lia.
  Qed.

  Lemma child_rows_length ps : length (child_rows ps) = length ps.
  Proof. unfold child_rows. by rewrite map_length, seq_length. Qed.

  Lemma child_rows_lookup ps n : n < length ps -> child_rows ps !! n = Some (map (fun c => Edge c 0 tt) (children_of ps n)).
  Proof.
    intros Hn. unfold child_rows. rewrite list_lookup_fmap, lookup_seq_lt by done. done.
  Qed.

  Lemma inside_snoc ps p : inside ps -> p < length ps -> inside (ps ++ [Some p]).
  Proof.
    intros Hi Hp i q Hq. destruct (decide (i < length ps)) as [Hl|Hl].
    - rewrite lookup_app_l in Hq by done. by apply Hi.
    - assert (i = length ps) as -> by (apply lookup_lt_Some in Hq; rewrite app_length in Hq; cbn in Hq; lia).
      rewrite lookup_app_r, Nat.sub_diag in Hq by lia. injection Hq as <-. done.
  Qed.

  Lemma add_node_holds t L c x : holds t L -> c < length L ->
    exists t', add_node_to_tree Directed Forward tt c x t = (length L, Ok (Done t')) /\ holds t' (L ++ [(Some c, x)]).
  Proof.
    intros (He & Hw & Hi) Hc. unfold add_node_to_tree, insert_node_to_tree. unfold order at 1 2. rewrite He, child_rows_length, map_length.
    rewrite Nat.min_id. unfold insert_node_w. rewrite He. unfold order at 1 2. rewrite child_rows_length, map_length, Nat.min_id.
    cbn [obind edges].
    assert (Hins : insert_node (length L) (child_rows L.*1) = child_rows L.*1 ++ [[]]).
    { unfold insert_node, order. rewrite child_rows_length, map_length, Nat.min_id.
      rewrite take_ge, drop_ge by (rewrite child_rows_length, map_length; lia). unfold fix_edge_data. rewrite map_app. f_equal.
      unfold child_rows. rewrite map_map. apply map_ext_in. intros n _. rewrite map_map. apply map_ext_in. intros k Hk. cbn [tgt].
      apply elem_of_list_In, children_lt in Hk. rewrite map_length in Hk. destruct (length L <=? k) eqn:Ek; [lia|done]. }
    rewrite Hins. unfold order. rewrite app_length, child_rows_length, map_length. cbn [length].
    destruct (1 <? length L + 1) eqn:E1; [|lia]. cbn [obind].
    unfold join_w, edges_w, join, check_node, order. cbn [edges weights]. rewrite app_length, child_rows_length, map_length. cbn [length].
    destruct (c <? length L + 1) eqn:E2; [|lia]. destruct (length L <? length L + 1) eqn:E3; [|lia]. cbn [rbind add_to_partition].
    unfold push, rget. rewrite lookup_app_l by (rewrite child_rows_length, map_length; lia). rewrite child_rows_lookup by (rewrite map_length; lia).
    cbn [rbind]. rewrite ?Nat.min_id, E3. cbn [rbind]. eexists. split; [reflexivity|]. split; [|split]; cbn [edges weights].
    - rewrite fmap_app. cbn [fmap list_fmap]. apply list_eq. intros n.
      destruct (decide (n < length L)) as [Hn|Hn].
      + rewrite child_rows_lookup by (rewrite app_length, map_length; lia). rewrite children_snoc, map_length, map_app. cbn [fst].
        destruct (decide (n = c)) as [->|Hne].
        * rewrite list_lookup_insert by (rewrite app_length, child_rows_length, map_length; lia). by rewrite decide_True.
        * rewrite list_lookup_insert_ne by done. rewrite lookup_app_l by (rewrite child_rows_length, map_length; lia).
          rewrite child_rows_lookup by (rewrite map_length; lia). rewrite decide_False by congruence. by rewrite app_nil_r.
      + rewrite list_lookup_insert_ne by lia. destruct (decide (n = length L)) as [->|Hne].
        * rewrite lookup_app_r by (rewrite child_rows_length, map_length; lia). rewrite child_rows_length, map_length, Nat.sub_diag.
          rewrite child_rows_lookup by (rewrite app_length, map_length; cbn; lia). rewrite children_snoc, children_beyond by (done || rewrite map_length; lia).
          cbn [fst]. rewrite decide_False; [done|]. intros [= ->]. lia.
        * rewrite !lookup_ge_None_2; [done| |]; rewrite ?child_rows_length, ?app_length, ?child_rows_length, ?map_length; cbn; lia.
    - rewrite Hw, fmap_app, take_ge, drop_ge by (rewrite map_length; lia). done.
    - rewrite fmap_app. apply inside_snoc; [done|]. by rewrite map_length.
  Qed.

  Lemma holds_root x : holds (WGraph [[]] [x]) [(None, x)].
  Proof. split; [done|]. split; [done|]. intros i p. destruct i as [|i]; done. Qed.

  (** Arguments for one operation. *)
  Definition with_args (args : list text) (x : operation E) : operation E := Operation (early x) (late x) (arguments x ++ args).

  Definition give (c : nat) (args : list text) L : list (option nat * operation E) :=
    alter (fun p => (p.1, with_args args p.2)) c L.

  Lemma give_parents c args L : (give c args L).*1 = L.*1.
  Proof.
    unfold give. apply list_eq. intros i. rewrite !list_lookup_fmap. destruct (decide (i = c)) as [->|Hne].
    - rewrite list_lookup_alter. by destruct (L !! c).
    - by rewrite list_lookup_alter_ne.
  Qed.

  Lemma give_weights c args L : (give c args L).*2 = alter (with_args args) c L.*2.
  Proof.
    unfold give. apply list_eq. intros i. rewrite list_lookup_fmap. destruct (decide (i = c)) as [->|Hne].
    - rewrite !list_lookup_alter, list_lookup_fmap. by destruct (L !! c).
    - rewrite !list_lookup_alter_ne by done. by rewrite list_lookup_fmap.
  Qed.

  Lemma holds_give t L c args : holds t L -> holds (WGraph (edges t) (alter (with_args args) c (weights t))) (give c args L).
  Proof. intros (He & Hw & Hi). unfold holds. rewrite give_parents, give_weights. cbn. by rewrite He, Hw. Qed.

  Lemma give_length c args L : length (give c args L) = length L.
  Proof. apply alter_length. Qed.

  Lemma with_args_nil x : with_args [] x = x.
  Proof. destruct x. unfold with_args. cbn. by rewrite app_nil_r. Qed.

  Lemma with_args_app a b x : with_args b (with_args a x) = with_args (a ++ b) x.
  Proof. unfold with_args. cbn. by rewrite app_assoc. Qed.

  Lemma give_nil c L : give c [] L = L.
  Proof.
    unfold give. apply list_eq. intros i. destruct (decide (i = c)) as [->|Hne].
    - rewrite list_lookup_alter. destruct (L !! c) as [[p x]|]; [|done]. cbn. by rewrite with_args_nil.
    - by rewrite list_lookup_alter_ne.
  Qed.

  Lemma give_give c a b L : give c b (give c a L) = give c (a ++ b) L.
  Proof.
    unfold give. apply list_eq. intros i. destruct (decide (i = c)) as [->|Hne].
    - rewrite !list_lookup_alter. destruct (L !! c) as [[p x]|]; [|done]. cbn. by rewrite with_args_app.
    - by rewrite !list_lookup_alter_ne.
  Qed.

  Lemma give_app c args L L' : c < length L -> give c args (L ++ L') = give c args L ++ L'.
  Proof. intros H. unfold give. by apply alter_app_l. Qed.

  (** *** Trees written down *)

  Lemma otree_rect' (P : otree E -> Prop) :
    (forall x ts, Forall P ts -> P (OTree x ts)) -> forall t, P t.
  Proof.
    intros H. fix IH 1. intros [v cs]. apply H. induction cs as [|c cs IHc]; constructor; [apply IH|exact IHc].
  Qed.

  Fixpoint flats (par : option nat) (b : nat) (ts : list (otree E)) : list (option nat * operation E) :=
    match ts with
    | [] => []
    | t :: ts => flat par b t ++ flats par (b + length (flat par b t)) ts
    end.

  Lemma flat_node par base x ts : flat par base (OTree x ts) = (par, x) :: flats (Some base) (S base) ts.
  Proof.
    cbn [flat]. f_equal. generalize (S base) as b. induction ts as [|t ts IH]; intros b; [done|]. cbn. by rewrite IH.
  Qed.

  Lemma flats_app par b ts ts' : flats par b (ts ++ ts') = flats par b ts ++ flats par (b + length (flats par b ts)) ts'.
  Proof.
    revert b. induction ts as [|t ts IH]; intros b; cbn [flats app]; [by rewrite Nat.add_0_r|].
    rewrite IH, <- app_assoc, app_length. by rewrite Nat.add_assoc.
  Qed.

  Lemma flats_one par b t : flats par b [t] = flat par b t.
  Proof. cbn. by rewrite app_nil_r. Qed.

  Lemma flat_length par par' b b' (t : otree E) : length (flat par b t) = length (flat par' b' t).
  Proof.
    revert par par' b b'. induction t as [x ts IH] using otree_rect'. intros par par' b b'. rewrite !flat_node. cbn [length]. f_equal.
    generalize (S b) as c, (S b') as c', (Some b) as q, (Some b') as q'. induction IH as [|t ts Ht _ IHt]; intros c c' q q'; [done|].
    cbn [flats]. rewrite !app_length, (Ht q q' c c'). f_equal. apply IHt.
  Qed.

  Lemma flat_nonempty par b (t : otree E) : 0 < length (flat par b t).
  Proof. destruct t. rewrite flat_node. cbn. lia. Qed.

  (** The parents in the part of a list made by a tree lie in that part, but for that of the root. *)
  Lemma flat_parents (t : otree E) : forall par b i q, (flat par b t).*1 !! i = Some q ->
    (i = 0 /\ q = par) \/ (0 < i /\ exists p, q = Some p /\ b <= p < b + i).
  Proof.
    induction t as [x ts IH] using otree_rect'. intros par b i q. rewrite flat_node. destruct i as [|i]; cbn.
    { intros [= <-]. by left. }
    intros H. right. split; [lia|].
    assert (Hgen : forall c j q, b < c -> (flats (Some b) c ts).*1 !! j = Some q -> exists p, q = Some p /\ b <= p < c + j).
    { clear H q i. induction IH as [|t ts Ht _ IHt]; intros c j q Hc; [done|]. cbn [flats]. rewrite fmap_app. intros H.
      apply lookup_app_Some in H as [H|[Hj H]].
      - apply Ht in H as [[-> ->]|(Hj & p & -> & Hp)]; [exists b; split; [done|lia]|]. exists p. split; [done|lia].
      - rewrite map_length in Hj, H. apply IHt in H as (p & -> & Hp); [|lia]. exists p. split; [done|lia]. }
    destruct (Hgen (S b) i q ltac:(lia) H) as (p & -> & Hp). exists p. split; [done|lia].
  Qed.

  Lemma flats_parents (ts : list (otree E)) : forall par b i q, (flats par b ts).*1 !! i = Some q ->
    q = par \/ exists p, q = Some p /\ b <= p < b + i.
  Proof.
    induction ts as [|t ts IH]; intros par b i q; [done|]. cbn [flats]. rewrite fmap_app. intros H.
    apply lookup_app_Some in H as [H|[Hj H]].
    - apply flat_parents in H as [[-> ->]|(Hi & p & -> & Hp)]; [by left|right]. by exists p.
    - rewrite map_length in Hj, H. apply IH in H as [->|(p & -> & Hp)]; [by left|right]. exists p. split; [done|lia].
  Qed.
End trees.
