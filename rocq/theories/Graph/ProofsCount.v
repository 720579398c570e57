(** Counting edges (C18). *)
From stdpp Require Import list sorting sets.
From Coq Require Import Permutation.
From Verif.Base Require Import Outcome ListLemmas.
From Verif.Graph Require Import Model Spec ProofsBase ProofsPartial ProofsComp ProofsEmb.
Local Open Scope res_scope.

(** *** Sums *)

Fixpoint nsum (f : nat -> nat) (n : nat) : nat :=
  match n with
  | 0 => 0
  | S n => nsum f n + f n
  end.

Lemma nsum_ext f h n : (forall i, i < n -> f i = h i) -> nsum f n = nsum h n.
Proof.
  induction n as [|n IH]; intros H; [done|]. cbn [nsum]. rewrite IH by (intros; apply H; lia).
  by rewrite H by lia.
Qed.

Lemma nsum_add f h n : nsum (fun i => f i + h i) n = nsum f n + nsum h n.
Proof. induction n as [|n IH]; [done|]. cbn [nsum]. lia. Qed.

Lemma nsum_zero f n : (forall i, i < n -> f i = 0) -> nsum f n = 0.
Proof.
  induction n as [|n IH]; intros H; [done|]. cbn [nsum]. rewrite IH, H by (intros; try apply H; lia). done.
Qed.

Lemma nsum_single f n k : k < n -> (forall i, i < n -> i <> k -> f i = 0) -> nsum f n = f k.
Proof.
  induction n as [|n IH]; intros Hk H; [lia|]. cbn [nsum]. destruct (decide (k = n)) as [->|].
  - rewrite nsum_zero; [done|]. intros i Hi. apply H; lia.
  - rewrite IH by (intros; try apply H; lia). rewrite (H n) by lia. lia.
Qed.

(** One term taken out. *)
Lemma nsum_skip f n k : k < n -> nsum f n = nsum (fun i => f (up k i)) (n - 1) + f k.
Proof.
  intros Hk. induction n as [|n IH]; [lia|]. cbn [nsum]. replace (S n - 1) with n by lia.
  destruct (decide (k = n)) as [->|].
  - f_equal. apply nsum_ext. intros i Hi. unfold up. by rewrite decide_False by lia.
  - rewrite IH by lia. destruct n as [|n]; [lia|]. cbn [nsum]. replace (S n - 1) with n by lia.
    assert (Hu : up k n = S n) by (unfold up; rewrite decide_True by lia; lia).
    rewrite Hu. lia.
Qed.

Lemma even_plus' a b : Nat.Even a -> Nat.Even b -> Nat.Even (a + b).
Proof. intros [x Hx] [y Hy]. exists (x + y). lia. Qed.

Lemma even_double_sum (M : nat -> nat -> nat) n :
  (forall i j, i < n -> j < n -> M i j = M j i) -> (forall i, i < n -> Nat.Even (M i i)) ->
  Nat.Even (nsum (fun i => nsum (M i) n) n).
Proof.
  intros Hs Hd. induction n as [|n IH]; [by exists 0|]. cbn [nsum].
  rewrite (nsum_add (fun i => nsum (M i) n) (fun i => M i n)).
  assert (Hx : nsum (fun i => M i n) n = nsum (M n) n) by (apply nsum_ext; intros; apply Hs; lia).
  rewrite Hx. replace (nsum (fun i => nsum (M i) n) n + nsum (M n) n + (nsum (M n) n + M n n))
    with (nsum (fun i => nsum (M i) n) n + (nsum (M n) n + nsum (M n) n) + M n n) by lia.
  apply even_plus'; [apply even_plus'|].
  - apply IH; [intros; apply Hs; lia|intros; apply Hd; lia].
  - exists (nsum (M n) n). lia.
  - apply Hd. lia.
Qed.

(** An involution without fixed points lives on an even number of things. *)
Lemma even_involution {A} `{!EqDecision A} (f : A -> A) (l : list A) :
  NoDup l -> (forall x, x ∈ l -> f x ∈ l /\ f (f x) = x /\ f x <> x) -> Nat.Even (length l).
Proof.
  remember (length l) as n eqn:Hn. revert l Hn.
  induction (lt_wf n) as [n _ IH]. intros l Hn Hnd Hf. destruct l as [|x l]; [by exists 0; rewrite Hn|].
  apply NoDup_cons in Hnd as [Hx Hnd]. destruct (Hf x) as (Hfx & Hffx & Hne); [left|].
  assert (Hin : f x ∈ l) by (apply elem_of_cons in Hfx as [?|?]; [congruence|done]).
  set (l' := filter (fun y => y <> f x) l).
  assert (Hlen : length l = S (length l')).
  { unfold l'. clear -Hnd Hin. induction l as [|y l IH]; [by apply elem_of_nil in Hin|].
    apply NoDup_cons in Hnd as [Hy Hnd]. destruct (decide (y = f x)) as [->|Hne].
    - rewrite filter_cons_False by auto. simpl. f_equal. symmetry.
      clear IH Hin Hnd. revert Hy. generalize (f x). intros b Hy. induction l as [|z l IH]; [done|].
      rewrite not_elem_of_cons in Hy. destruct Hy as [Hz Hy]. rewrite filter_cons_True by auto. simpl. by rewrite IH.
    - rewrite filter_cons_True by done. simpl. f_equal. apply IH; [done|].
      apply elem_of_cons in Hin as [?|?]; [congruence|done]. }
  simpl in Hn. assert (Hev : Nat.Even (length l')); [apply (IH (length l') ltac:(lia) l'); [done| |]|destruct Hev as [m Hm]; exists (S m); lia].
  - by apply NoDup_filter.
  - intros y Hy. apply elem_of_list_filter in Hy as [Hy1 Hy2].
    destruct (Hf y) as (Ha & Hb & Hc); [by right|]. split; [|done].
    apply elem_of_list_filter. split.
    + intros Heq. apply Hx. rewrite <- Hffx, <- Heq, Hb. done.
    + apply elem_of_cons in Ha as [Ha|Ha]; [|done]. exfalso. apply Hy1. by rewrite <- Ha, Hb.
Qed.

Lemma list_filter_filter' {A} (P Q : A -> Prop) `{!forall x, Decision (P x)} `{!forall x, Decision (Q x)} (l : list A) :
  filter P (filter Q l) = filter (fun y => P y /\ Q y) l.
Proof.
  induction l as [|y l IH]; [done|]. rewrite !filter_cons. destruct (decide (Q y)).
  - rewrite filter_cons. destruct (decide (P y)).
    + rewrite decide_True by done. by rewrite IH.
    + rewrite decide_False by tauto. done.
  - rewrite decide_False by tauto. done.
Qed.

(** Lists in which everything occurs evenly often. *)
Lemma even_occurrences {A} `{!EqDecision A} (l : list A) :
  (forall x, Nat.Even (length (filter (fun y => y = x) l))) -> Nat.Even (length l).
Proof.
  remember (length l) as n eqn:Hn. revert l Hn.
  induction (lt_wf n) as [n _ IH]. intros l Hn Hf. destruct l as [|x l]; [by exists 0; rewrite Hn|].
  set (l1 := filter (fun y => y = x) (x :: l)). set (l2 := filter (fun y => y <> x) (x :: l)).
  assert (Hlen : length (x :: l) = length l1 + length l2).
  { unfold l1, l2. generalize (x :: l). clear. intros l. induction l as [|y l IH]; [done|].
    rewrite !filter_cons. destruct (decide (y = x)); destruct (decide (y <> x)); try done; simpl; lia. }
  rewrite Hn, Hlen. apply even_plus'; [apply Hf|].
  assert (Hl1 : 0 < length l1) by (unfold l1; rewrite filter_cons_True by done; simpl; lia).
  apply (IH (length l2) ltac:(simpl in *; lia) l2 eq_refl). intros z. unfold l2. rewrite list_filter_filter'.
  destruct (decide (z = x)) as [->|Hne].
  - replace (filter (fun y => y = x /\ y <> x) (x :: l)) with (@nil A); [by exists 0|].
    symmetry. generalize (x :: l). clear. intros l. induction l as [|y l IH]; [done|].
    rewrite filter_cons_False; [done|]. tauto.
  - rewrite (list_filter_iff (fun y => y = z /\ y <> x) (fun y => y = z)); [apply Hf|].
    intros y. split; [tauto|]. intros ->. done.
Qed.

Lemma length_filter_count {A} `{!EqDecision A} (l l' : list A) :
  (forall x, length (filter (fun y => y = x) l) = length (filter (fun y => y = x) l')) ->
  length l = length l'.
Proof.
  intros H.
  assert (Hco : forall (l : list A) x, count_occ EqDecision0 l x = length (filter (fun y => y = x) l)).
  { intros k x. induction k as [|y k IH]; [done|]. rewrite filter_cons. simpl.
    destruct (EqDecision0 y x), (decide (y = x)); try done; simpl; lia. }
  apply Permutation_length. apply (Permutation_count_occ EqDecision0). intros x. by rewrite !Hco.
Qed.

Section counting.
  Context {W : Type} `{!EqDecision W}.
  Implicit Types g : graph W.
  Implicit Types r : list (edge W).

  Lemma total_sum g : num_partial_edges g = nsum (fun i => length (row g i)) (length g).
  Proof.
    unfold num_partial_edges. induction g as [|r g IH] using rev_ind; [done|].
    assert (Hj : length (mjoin (g ++ [r])) = length (mjoin g) + length r).
    { clear IH. induction g as [|a g IH]; simpl; [rewrite app_nil_r; lia|]. rewrite !app_length. simpl in IH. lia. }
    rewrite Hj, IH, app_length, Nat.add_1_r. cbn [nsum]. f_equal.
    - apply nsum_ext. intros i Hi. by rewrite row_app_l.
    - rewrite row_app_r by done. by rewrite Nat.sub_diag.
  Qed.

  (** The number of edges from [i] to [j]. *)
  Definition links g (i j : nat) : nat := length (filter (fun e => tgt e = j) (row g i)).

  Lemma length_by_target r n :
    (forall e, e ∈ r -> tgt e < n) -> length r = nsum (fun j => length (filter (fun e => tgt e = j) r)) n.
  Proof.
    induction r as [|e r IH]; intros H; [by rewrite nsum_zero|].
    rewrite (nsum_ext _ (fun j => (if decide (tgt e = j) then 1 else 0) + length (filter (fun e => tgt e = j) r))).
    - rewrite nsum_add, <- IH by (intros; apply H; by right).
      rewrite (nsum_single _ n (tgt e)); [by rewrite decide_True|apply H; left|].
      intros i _ Hi. by rewrite decide_False by auto.
    - intros i _. rewrite filter_cons. by destruct (decide _).
  Qed.

  Lemma links_weights g i j w :
    length (filter (fun y => y = w) (map wt (filter (fun e => tgt e = j) (row g i)))) = count g i j w.
  Proof.
    unfold count. induction (row g i) as [|e r IH]; [done|]. rewrite !filter_cons.
    destruct (decide (tgt e = j)) as [Ht|Ht].
    - cbn [map]. rewrite filter_cons. destruct (decide (wt e = w)) as [Hw|Hw].
      + rewrite decide_True by done. simpl. by rewrite IH.
      + rewrite decide_False by tauto. done.
    - rewrite (decide_False (P := tgt e = j /\ wt e = w)) by tauto. done.
  Qed.

  Lemma links_sym g i j : reciprocal g -> links g i j = links g j i.
  Proof.
    intros (_ & Hs & _). unfold links.
    rewrite <- (map_length wt (filter (fun e => tgt e = j) (row g i))).
    rewrite <- (map_length wt (filter (fun e => tgt e = i) (row g j))).
    apply length_filter_count. intros w. rewrite !links_weights. apply Hs.
  Qed.

  Lemma links_even g i : reciprocal g -> Nat.Even (links g i i).
  Proof.
    intros (_ & _ & He). unfold links.
    rewrite <- (map_length wt (filter (fun e => tgt e = i) (row g i))).
    apply even_occurrences. intros w. rewrite links_weights. apply He.
  Qed.

  Lemma reciprocal_even g : reciprocal g -> Nat.Even (num_partial_edges g).
  Proof.
    intros H. rewrite total_sum.
    rewrite (nsum_ext _ (fun i => nsum (links g i) (length g))).
    - apply even_double_sum; intros; [by apply links_sym|by apply links_even].
    - intros i Hi. apply length_by_target. intros e He. by eapply (proj1 H).
  Qed.

  (** *** Embedded graphs are undirected graphs *)

  Fixpoint places (P : edge W -> bool) (k : nat) r : list nat :=
    match r with
    | [] => []
    | e :: r => if P e then k :: places P (S k) r else places P (S k) r
    end.

  Lemma places_elem P k r x :
    x ∈ places P k r <-> k <= x /\ exists e, r !! (x - k) = Some e /\ P e = true.
  Proof.
    revert k. induction r as [|e r IH]; intros k; cbn [places].
    - split; [by intros ?%elem_of_nil|]. intros (_ & e & He & _). done.
    - assert (Hstep : x ∈ places P (S k) r <-> S k <= x /\ exists e0, (e :: r) !! (x - k) = Some e0 /\ P e0 = true).
      { rewrite IH. split; intros (Hx & e0 & He & Hp); (split; [lia|]); exists e0; (split; [|done]).
        - by replace (x - k) with (S (x - S k)) by lia.
        - by replace (x - k) with (S (x - S k)) in He by lia. }
      destruct (P e) eqn:Ep.
      + rewrite elem_of_cons, Hstep. split.
        * intros [->|[Hx ?]]; [|split; [lia|done]]. split; [lia|]. exists e. by rewrite Nat.sub_diag.
        * intros [Hx He]. destruct (decide (x = k)); [by left|]. right. split; [lia|done].
      + rewrite Hstep. split; intros (Hx & e0 & He & Hp).
        * split; [lia|]. eauto.
        * split; [|eauto]. destruct (decide (x = k)) as [->|]; [|lia].
          rewrite Nat.sub_diag in He. simpl in He. congruence.
  Qed.

  Lemma places_NoDup P k r : NoDup (places P k r).
  Proof.
    revert k. induction r as [|e r IH]; intros k; cbn [places]; [constructor|].
    destruct (P e); [|apply IH]. constructor; [|apply IH]. intros Hin%places_elem. lia.
  Qed.

  Lemma places_length j w k r :
    length (places (fun e => bool_decide (tgt e = j /\ wt e = w)) k r) = hits j w r.
  Proof.
    revert k. induction r as [|e r IH]; intros k; [done|]. cbn [places]. rewrite hits_cons.
    unfold hit. case_bool_decide as Hx.
    - rewrite decide_True by done. simpl. by rewrite IH.
    - rewrite decide_False by done. by rewrite IH.
  Qed.

  Definition matches j w (e : edge W) : bool := bool_decide (tgt e = j /\ wt e = w).
  Definition comp_at g i (k : nat) : nat := match row g i !! k with Some e => comp e | None => 0 end.

  Lemma comp_maps g i j w k :
    comp_ok g -> k ∈ places (matches j w) 0 (row g i) ->
    comp_at g i k ∈ places (matches i w) 0 (row g j) /\ comp_at g j (comp_at g i k) = k
    /\ (i = j -> comp_at g i k <> k).
  Proof.
    intros Hok Hk. apply places_elem in Hk as (_ & e & He & Hm). rewrite Nat.sub_0_r in He.
    apply bool_decide_eq_true in Hm as [Ht Hw].
    destruct (Hok i k e He) as (e' & He' & Ht' & Hc' & Hw' & Hne). rewrite Ht in He'.
    assert (Hc : comp_at g i k = comp e) by (unfold comp_at; by rewrite He). rewrite Hc. split; [|split].
    - apply places_elem. split; [lia|]. rewrite Nat.sub_0_r. exists e'. split; [done|].
      apply bool_decide_eq_true. split; congruence.
    - unfold comp_at. by rewrite He'.
    - intros -> Hx. apply Hne. congruence.
  Qed.

  Lemma comp_ok_count_le g i j w : comp_ok g -> count g i j w <= count g j i w.
  Proof.
    intros Hok. rewrite !count_hits, <- !(places_length _ _ 0).
    fold (matches j w) (matches i w).
    rewrite <- (map_length (comp_at g i) (places (matches j w) 0 (row g i))).
    apply NoDup_incl_length.
    - apply NoDup_ListNoDup, NoDup_fmap_2_strong; [|apply places_NoDup].
      intros x y Hx Hy Heq.
      destruct (comp_maps g i j w x Hok Hx) as (_ & Hx' & _). destruct (comp_maps g i j w y Hok Hy) as (_ & Hy' & _).
      congruence.
    - intros x Hx. apply in_map_iff in Hx as (k & <- & Hk%elem_of_list_In). apply elem_of_list_In.
      by apply comp_maps.
  Qed.

  Lemma comp_ok_reciprocal g : comp_ok g -> reciprocal g.
  Proof.
    intros Hok. split; [by apply comp_ok_in_range|]. split.
    - intros i j w. apply Nat.le_antisymm; by apply comp_ok_count_le.
    - intros i w. rewrite count_hits, <- (places_length _ _ 0). fold (matches i w).
      apply (even_involution (comp_at g i)); [apply places_NoDup|].
      intros k Hk. destruct (comp_maps g i i w k Hok Hk) as (? & ? & ?). auto.
  Qed.

  Lemma graph_ok_even fl g : fl <> Directed -> graph_ok fl g -> Nat.Even (num_partial_edges g).
  Proof.
    intros Hfl H. apply reciprocal_even. destruct fl; [done|done|]. by apply comp_ok_reciprocal.
  Qed.

  (** *** How sizes change *)

  Lemma total_insert g s r :
    s < length g -> num_partial_edges (<[s := r]> g) + length (row g s) = num_partial_edges g + length r.
  Proof.
    intros Hs. rewrite !total_sum, insert_length.
    rewrite (nsum_skip _ (length g) s Hs). rewrite (nsum_skip (fun i => length (row g i)) (length g) s Hs).
    rewrite row_insert_eq by done.
    rewrite (nsum_ext _ (fun i => length (row g (up s i)))); [lia|].
    intros i Hi. by rewrite row_insert_ne by (done || apply up_ne).
  Qed.

  Lemma total_rows g g' :
    length g' = length g -> (forall i, length (row g' i) = length (row g i)) -> num_partial_edges g' = num_partial_edges g.
  Proof. intros Hl H. rewrite !total_sum, Hl. by apply nsum_ext. Qed.

  Lemma inserted_total n g g' : n <= length g -> is_inserted n g g' -> num_partial_edges g' = num_partial_edges g.
  Proof.
    intros Hn Hi. pose proof Hi as (Hl & H0 & _). rewrite !total_sum, Hl, (nsum_skip _ _ n) by lia.
    rewrite H0. simpl. rewrite Nat.add_0_r, Nat.sub_0_r. apply nsum_ext. intros i Hlt.
    rewrite (inserted_row n g g' _ Hn Hi), decide_False by apply up_ne. rewrite map_length. by rewrite down_up.
  Qed.

  Lemma swapped_total i j g g' : i < length g -> j < length g -> is_swapped i j g g' -> num_partial_edges g' = num_partial_edges g.
  Proof.
    intros Hi Hj [Hl H]. rewrite !total_sum, Hl.
    assert (Hrow : forall a, length (row g' a) = length (row g (transpose i j a))).
    { intros a. rewrite <- (transpose_invol i j a) at 1. by rewrite H, map_length. }
    rewrite (nsum_ext _ (fun a => length (row g (transpose i j a)))) by auto.
    destruct (decide (i = j)) as [->|Hij].
    { apply nsum_ext. intros a _. do 2 f_equal. unfold transpose. repeat case_decide; lia. }
    (* take both terms out of both sums *)
    rewrite (nsum_skip _ (length g) i Hi), (nsum_skip (fun i => length (row g i)) (length g) i Hi).
    assert (Hj' : down i j < length g - 1) by (apply down_lt; lia).
    rewrite (nsum_skip _ _ (down i j) Hj'), (nsum_skip (fun a => length (row g (up i a))) _ (down i j) Hj').
    rewrite !up_down by auto.
    rewrite (nsum_ext _ (fun a => length (row g (up i (up (down i j) a))))).
    - assert (Hti : transpose i j i = j) by (unfold transpose; by rewrite decide_True).
      assert (Htj : transpose i j j = i) by (unfold transpose; rewrite decide_False by auto; by rewrite decide_True).
      rewrite Hti, Htj. lia.
    - intros a _. do 2 f_equal. unfold transpose. rewrite decide_False by apply up_ne.
      rewrite decide_False; [done|]. intros Heq. apply (up_ne (down i j) a).
      rewrite <- (down_up i (up (down i j) a)), Heq. done.
  Qed.

  (** The edges of node [n] and those to it. *)
  Definition incident (fl : flavour) g (n : nat) : nat :=
    match fl with
    | Directed => length (row g n) + nsum (fun i => links g (up n i) n) (length g - 1)
    | _ => length (filter (fun e => tgt e <> n) (row g n)) + links g n n / 2
    end.

  Lemma filter_split n r : length r = length (filter (fun e => tgt e <> n) r) + length (filter (fun e => tgt e = n) r).
  Proof.
    induction r as [|e r IH]; [done|]. rewrite !filter_cons.
    destruct (decide (tgt e = n)), (decide (tgt e <> n)); try done; simpl; lia.
  Qed.

  Lemma erased_total fl n g g' :
    n < length g -> is_erased fl n g g' ->
    num_partial_edges g' + length (row g n) + nsum (fun i => links g (up n i) n) (length g - 1) = num_partial_edges g.
  Proof.
    intros Hn [Hl H]. rewrite !total_sum, Hl. rewrite (nsum_skip (fun i => length (row g i)) (length g) n Hn).
    rewrite (nsum_ext (fun i => length (row g' i)) (fun i => length (filter (fun e => tgt e <> n) (row g (up n i))))).
    2:{ intros i Hi. rewrite H by lia. by rewrite map_length. }
    rewrite (nsum_ext (fun i => length (row g (up n i)))
      (fun i => length (filter (fun e => tgt e <> n) (row g (up n i))) + links g (up n i) n)).
    2:{ intros i _. apply filter_split. }
    rewrite nsum_add. lia.
  Qed.

  Lemma sum_links_back n g :
    reciprocal g -> n < length g ->
    nsum (fun i => links g (up n i) n) (length g - 1) = length (filter (fun e => tgt e <> n) (row g n)).
  Proof.
    intros H Hn. pose proof (length_by_target (row g n) (length g)) as Hlen.
    rewrite (nsum_skip _ (length g) n Hn) in Hlen.
    rewrite (nsum_ext _ (fun i => links g n (up n i))) by (intros; by apply links_sym).
    unfold links in *. pose proof (filter_split n (row g n)) as Hs.
    rewrite Hlen in Hs; [|intros e He; by eapply (proj1 H)]. lia.
  Qed.

  Lemma erased_size fl n g g' :
    graph_ok fl g -> graph_ok fl g' -> n < length g -> is_erased fl n g g' ->
    size fl g' + incident fl g n = size fl g.
  Proof.
    intros Hok Hok' Hn He. pose proof (erased_total fl n g g' Hn He) as Ht.
    destruct fl; cbn [size incident].
    - lia.
    - rewrite sum_links_back in Ht by done. pose proof (filter_split n (row g n)) as Hs.
      destruct (links_even g n Hok) as [m Hm]. unfold links in *.
      destruct (reciprocal_even g Hok) as [a Ha]. destruct (reciprocal_even g' Hok') as [b Hb]. lia.
    - cbn [graph_ok] in *. apply comp_ok_reciprocal in Hok, Hok'.
      rewrite sum_links_back in Ht by done. pose proof (filter_split n (row g n)) as Hs.
      destruct (links_even g n Hok) as [m Hm]. unfold links in *.
      destruct (reciprocal_even g Hok) as [a Ha]. destruct (reciprocal_even g' Hok') as [b Hb]. lia.
  Qed.

  (** *** Each operation *)

  Lemma rbind_inv {A B} (m : res A) (f : A -> res B) b : rbind m f = Ok b -> exists a, m = Ok a /\ f a = Ok b.
  Proof. destruct m; cbn; try done. eauto. Qed.

  Lemma rget_inv {A} (l : list A) k x : rget l k = Ok x -> l !! k = Some x.
  Proof. unfold rget. destruct (l !! k); congruence. Qed.

  Lemma push_total g i e g' :
    push g i e = Ok g' -> length g' = length g /\ num_partial_edges g' = S (num_partial_edges g).
  Proof.
    unfold push. intros (r & Hr%rget_inv & H)%rbind_inv. injection H as <-.
    pose proof (lookup_lt_Some _ _ _ Hr) as Hi. rewrite <- (row_lookup g i r Hr).
    pose proof (total_insert g i (row g i ++ [e]) Hi) as Ht. rewrite app_length in Ht. simpl in Ht.
    rewrite insert_length. lia.
  Qed.

  Lemma insert_at_total g i k e g' :
    insert_at g i k e = Ok g' -> length g' = length g /\ num_partial_edges g' = S (num_partial_edges g).
  Proof.
    unfold insert_at. intros (r & Hr%rget_inv & H)%rbind_inv.
    destruct (Nat.leb_spec k (length r)) as [Hk|]; [|done]. injection H as <-.
    pose proof (lookup_lt_Some _ _ _ Hr) as Hi. rewrite <- (row_lookup g i r Hr) in *.
    pose proof (total_insert g i (take k (row g i) ++ e :: drop k (row g i)) Hi) as Ht.
    rewrite app_length, take_length in Ht. cbn [length] in Ht. rewrite drop_length in Ht.
    rewrite insert_length. lia.
  Qed.

  Lemma erase_at_total g i k g' :
    erase_at g i k = Ok g' -> length g' = length g /\ S (num_partial_edges g') = num_partial_edges g.
  Proof.
    unfold erase_at. intros (r & Hr%rget_inv & H)%rbind_inv. apply rbind_inv in H as (e & He%rget_inv & H).
    injection H as <-. pose proof (lookup_lt_Some _ _ _ Hr) as Hi. rewrite <- (row_lookup g i r Hr) in *.
    pose proof (lookup_lt_Some _ _ _ He) as Hk.
    pose proof (total_insert g i (take k (row g i) ++ drop (S k) (row g i)) Hi) as Ht.
    rewrite app_length, take_length, drop_length in Ht.
    rewrite insert_length. lia.
  Qed.

  Lemma upd_total g i k f g' :
    upd g i k f = Ok g' -> length g' = length g /\ num_partial_edges g' = num_partial_edges g.
  Proof.
    unfold upd. intros (r & Hr%rget_inv & H)%rbind_inv. apply rbind_inv in H as (e & He%rget_inv & H).
    injection H as <-. pose proof (lookup_lt_Some _ _ _ Hr) as Hi. rewrite <- (row_lookup g i r Hr) in *.
    pose proof (total_insert g i (<[k := f e]> (row g i)) Hi) as Ht.
    rewrite insert_length in Ht. rewrite insert_length. lia.
  Qed.

  Lemma modify_comp_total f s ks g g' :
    modify_comp f s ks g = Ok g' -> length g' = length g /\ num_partial_edges g' = num_partial_edges g.
  Proof.
    revert g. induction ks as [|k ks IH]; intros g; cbn [modify_comp]; [by intros [= <-]|].
    intros (e & _ & H)%rbind_inv. apply rbind_inv in H as (g1 & H1 & H).
    apply upd_total in H1 as [Ha Hb]. apply IH in H as [Hc Hd]. split; congruence.
  Qed.

  Lemma modify_from_total f s k g g' :
    modify_from f s k g = Ok g' -> length g' = length g /\ num_partial_edges g' = num_partial_edges g.
  Proof. unfold modify_from. intros (r & _ & H)%rbind_inv. by eapply modify_comp_total. Qed.

  Ltac binds :=
    repeat match goal with
    | H : rbind _ _ = Ok _ |- _ => apply rbind_inv in H as (? & ? & H)
    | H : (if ?b then _ else _) = Ok _ |- _ => destruct b eqn:?; try done
    | H : Ok _ = Ok _ |- _ => injection H as ?
    | H : push _ _ _ = Ok _ |- _ => apply push_total in H as [? ?]
    | H : insert_at _ _ _ _ = Ok _ |- _ => apply insert_at_total in H as [? ?]
    | H : erase_at _ _ _ = Ok _ |- _ => apply erase_at_total in H as [? ?]
    | H : upd _ _ _ _ = Ok _ |- _ => apply upd_total in H as [? ?]
    | H : modify_comp _ _ _ _ = Ok _ |- _ => apply modify_comp_total in H as [? ?]
    | H : modify_from _ _ _ _ = Ok _ |- _ => apply modify_from_total in H as [? ?]
    | H : match ?m with Some _ => _ | None => _ end = Ok _ |- _ => destruct m eqn:?; try done
    end.

  (** The number of partial edges an edge consists of. *)
  Definition halves (fl : flavour) : nat := match fl with Directed => 1 | _ => 2 end.

  Lemma join_total fl n1 n2 w g g' :
    join fl n1 n2 w g = Ok g' -> length g' = length g /\ num_partial_edges g' = num_partial_edges g + halves fl.
  Proof.
    unfold join, add_to_partition, reciprocal_join. intros H. destruct fl; cbn [halves]; binds; subst; lia.
  Qed.

  Lemma insert_join_loop_total n k1 pos2 w g g' :
    insert_join_loop n k1 pos2 w g = Ok g' -> length g' = length g /\ num_partial_edges g' = num_partial_edges g + 2.
  Proof.
    unfold insert_join_loop, insert_to_partition, insert_reciprocal_loop. intros H. binds; lia.
  Qed.

  Lemma insert_join_total i1 k1 i2 k2 w g g' :
    insert_join i1 k1 i2 k2 w g = Ok g' -> length g' = length g /\ num_partial_edges g' = num_partial_edges g + 2.
  Proof.
    unfold insert_join, insert_to_partition, insert_reciprocal. intros H.
    destruct (i1 =? i2); [by eapply insert_join_loop_total|]. binds; lia.
  Qed.

  Lemma erase_edge_total fl s k g g' :
    k < length (row g s) ->
    erase_edge fl s k g = Ok g' -> length g' = length g /\ num_partial_edges g' + halves fl = num_partial_edges g.
  Proof.
    intros Hk H. unfold erase_edge in H. destruct (lookup_in_range _ _ Hk) as [e He].
    pose proof (row_some_lt _ _ _ _ He) as Hs. unfold order in H. destruct (Nat.eqb_spec (length g) 0); [lia|].
    rewrite check_node_ok in H by done. cbn [rbind] in H. rewrite rget_row in H by done. cbn [rbind] in H.
    destruct (Nat.eqb_spec k (length (row g s))); [lia|]. apply rget_ok in He. rewrite He in H. cbn [rbind] in H.
    destruct fl; cbn [halves]; binds; lia.
  Qed.

  Lemma set_edge_weight_total fl s k w g g' :
    set_edge_weight fl s k w g = Ok g' -> length g' = length g /\ num_partial_edges g' = num_partial_edges g.
  Proof. unfold set_edge_weight. intros H. destruct fl; binds; lia. Qed.

  Lemma mutate_edge_weight_total fl s k f g g' :
    mutate_edge_weight fl s k f g = Ok g' -> length g' = length g /\ num_partial_edges g' = num_partial_edges g.
  Proof. unfold mutate_edge_weight. intros H. destruct fl; binds; subst; lia. Qed.

  Lemma perm_row_total g n r : n < length g -> r ≡ₚ row g n -> num_partial_edges (<[n := r]> g) = num_partial_edges g.
  Proof. intros Hn Hp. pose proof (total_insert g n r Hn) as Ht. apply Permutation_length in Hp. lia. Qed.

  Lemma size_halves fl g g' n :
    num_partial_edges g' = num_partial_edges g + n * halves fl -> size fl g' = size fl g + n.
  Proof. intros H. destruct fl; cbn [size halves] in *; lia. Qed.

  (** What each call does to the numbers of nodes and edges. *)
  Definition counts_ok (fl : flavour) (o : op W) g g' : Prop :=
    match o with
    | AddNode | InsertNode _ => order g' = order g + 1 /\ size fl g' = size fl g
    | EraseNode n => order g' + 1 = order g /\ size fl g' + incident fl g n = size fl g
    | Join _ _ _ | InsertJoin _ _ _ _ _ | InsertLoop _ _ _ _ =>
        order g' = order g /\ size fl g' = size fl g + 1
    | EraseEdge i k =>
        order g' = order g /\ size fl g' + (if decide (k < length (row g i)) then 1 else 0) = size fl g
    | _ => order g' = order g /\ size fl g' = size fl g
    end.

  Lemma graph_ok_in_range fl g : graph_ok fl g -> in_range g.
  Proof. destruct fl; [done|by intros [? _]|apply comp_ok_in_range]. Qed.

  Lemma step_ok fl o g g' : graph_ok fl g -> allowed fl g o -> step fl o g = Ok g' -> graph_ok fl g'.
  Proof.
    intros Hok Ha Hs. assert (Hf : fine fl o g).
    { destruct fl; [by apply step_directed|by apply step_undirected|by apply step_embedded]. }
    destruct Hf as [(g1 & H1 & H2)|[x H]]; congruence.
  Qed.

  Lemma erase_node_is fl n g :
    graph_ok fl g -> n < length g -> exists g', erase_node fl n g = Ok g' /\ is_erased fl n g g'.
  Proof.
    intros Hok Hn. destruct fl.
    - by apply erase_node_directed.
    - by apply erase_node_undirected.
    - destruct (erase_node_embedded n g Hok Hn) as (g' & ? & ? & _). eauto.
  Qed.

  Lemma swap_nodes_is fl i j g :
    graph_ok fl g -> i < length g -> j < length g ->
    exists g', swap_nodes fl i j g = Ok g' /\ is_swapped i j g g'.
  Proof.
    intros Hok Hi Hj. destruct fl.
    - by apply swap_nodes_directed.
    - apply swap_nodes_symmetric; try done; [apply Hok|]. intros. by eapply reciprocal_neighbours.
    - apply swap_nodes_symmetric; try done; [by apply comp_ok_in_range|]. intros. by eapply comp_ok_neighbours.
  Qed.

  Lemma step_counts fl o g g' :
    graph_ok fl g -> allowed fl g o -> step fl o g = Ok g' -> counts_ok fl o g g'.
  Proof.
    intros Hok Ha Hs. pose proof (step_ok fl o g g' Hok Ha Hs) as Hok'.
    pose proof (graph_ok_in_range fl g Hok) as Hr.
    assert (Hins : forall n, n <= length g -> is_inserted n g g' -> order g' = order g + 1 /\ size fl g' = size fl g).
    { intros n Hn Hi. pose proof (inserted_total n g g' Hn Hi) as Ht. destruct Hi as [Hl _]. unfold order.
      split; [lia|]. by destruct fl; cbn [size]; rewrite Ht. }
    assert (Hsame : length g' = length g /\ num_partial_edges g' = num_partial_edges g ->
       order g' = order g /\ size fl g' = size fl g).
    { intros [H1 H2]. split; [done|]. by destruct fl; cbn [size]; rewrite H2. }
    destruct o; cbn [step counts_ok allowed] in *.
    - injection Hs as <-. apply (Hins (length g)); [done|]. by apply add_node_inserted.
    - injection Hs as <-. apply (Hins (Nat.min pos (length g))); [lia|]. by apply insert_node_inserted.
    - assert (Hn : n < length g).
      { unfold erase_node, check_node, order in Hs. destruct (Nat.ltb_spec n (length g)); [done|]. done. }
      assert (He : is_erased fl n g g').
      { destruct (erase_node_is fl n g Hok Hn) as (g1 & H1 & H2). congruence. }
      split; [|by apply erased_size]. destruct He as [Hl _]. unfold order. lia.
    - apply join_total in Hs as [H1 H2]. split; [done|]. apply size_halves. lia.
    - destruct Ha as (-> & _). apply insert_join_total in Hs as [H1 H2]. split; [done|]. apply size_halves. cbn [halves]. lia.
    - destruct Ha as (-> & _). apply insert_join_loop_total in Hs as [H1 H2]. split; [done|]. apply size_halves. cbn [halves]. lia.
    - destruct Ha as [Hi Hk]. destruct (decide (k < length (row g i))) as [Hlt|Hge].
      + apply erase_edge_total in Hs as [H1 H2]; [|done]. split; [done|].
        symmetry. rewrite Nat.add_comm, (Nat.add_comm 1). apply size_halves. lia.
      + rewrite erase_edge_end in Hs by (done || lia). injection Hs as <-. split; [done|lia].
    - unfold swap_nodes in Hs. pose proof Hs as Hs0.
      apply rbind_inv in Hs as (u & Hu & Hs). apply rbind_inv in Hs as (v & Hv & _).
      assert (Hi : i < length g) by (unfold check_node, order in Hu; destruct (Nat.ltb_spec i (length g)); done).
      assert (Hj : j < length g) by (unfold check_node, order in Hv; destruct (Nat.ltb_spec j (length g)); done).
      assert (Hsw : is_swapped i j g g').
      { destruct (swap_nodes_is fl i j g Hok Hi Hj) as (g1 & H1 & H2). unfold swap_nodes in H1. congruence. }
      apply Hsame. split; [apply Hsw|exact (swapped_total i j g g' Hi Hj Hsw)].
    - destruct (swap_edges_row n i j g) as [(r & Hn & H1 & Hp)|H1]; [|congruence].
      rewrite H1 in Hs. injection Hs as <-. apply Hsame. rewrite insert_length. split; [done|by apply perm_row_total].
    - destruct Ha as (_ & Hi1 & Hi2 & Hle & Hsort).
      destruct (sort_edges_row i1 k1 i2 k2 sorter g Hi1 Hi2 Hle Hsort) as [H1|(r & Hn & H1 & Hp)];
        rewrite H1 in Hs; injection Hs as <-; apply Hsame; [done|].
      rewrite insert_length. split; [done|by apply perm_row_total].
    - apply Hsame. by eapply set_edge_weight_total.
    - apply Hsame. by eapply mutate_edge_weight_total.
  Qed.
End counting.
