(** The order in which nodes are visited. *)
From stdpp Require Import list.
From Verif.Base Require Import Outcome ListLemmas.
From Verif.Graph Require Import Model Spec ModelTraverse SpecTraverse SpecOrder ProofsBase ProofsTraverse ProofsTraverseEdges ProofsTraverseDfs.
Local Open Scope res_scope.

Lemma elem_of_firsts l x : x ∈ firsts l <-> x ∈ l.
Proof.
  induction l as [|y l IH]; [done|]. cbn [firsts]. rewrite !elem_of_cons, elem_of_list_filter, IH. destruct (decide (x = y)); naive_solver.
Qed.

Lemma NoDup_firsts l : NoDup (firsts l).
Proof.
  induction l as [|y l IH]; [constructor|]. cbn [firsts]. constructor; [|by apply NoDup_filter].
  rewrite elem_of_list_filter. naive_solver.
Qed.

Lemma filter_and {A} (P Q R : A -> Prop) `{!forall x, Decision (P x), !forall x, Decision (Q x), !forall x, Decision (R x)} (l : list A) :
  (forall x, x ∈ l -> R x <-> P x /\ Q x) -> filter P (filter Q l) = filter R l.
Proof.
  induction l as [|x l IH]; intros Hall; [done|]. rewrite !filter_cons. specialize (IH (fun y Hy => Hall y (elem_of_list_further _ _ _ Hy))).
  specialize (Hall x (elem_of_list_here _ _)). destruct (decide (Q x)).
  - rewrite filter_cons, IH. destruct (decide (P x)), (decide (R x)); naive_solver.
  - rewrite IH. destruct (decide (R x)); naive_solver.
Qed.

Lemma filter_swap {A} (P Q : A -> Prop) `{!forall x, Decision (P x), !forall x, Decision (Q x)} (l : list A) :
  filter P (filter Q l) = filter Q (filter P l).
Proof. rewrite (filter_and P Q (fun x => P x /\ Q x)) by done. symmetry. apply filter_and. naive_solver. Qed.

Lemma filter_all {A} (P : A -> Prop) `{!forall x, Decision (P x)} (l : list A) : (forall x, x ∈ l -> P x) -> filter P l = l.
Proof.
  induction l as [|x l IH]; intros Hall; [done|]. rewrite filter_cons_True by (apply Hall; left). f_equal. apply IH. intros y Hy. apply Hall. by right.
Qed.

Lemma firsts_app a b : firsts (a ++ b) = firsts a ++ filter (fun x => x ∉ a) (firsts b).
Proof.
  induction a as [|x a IH]; cbn [app firsts].
  - symmetry. apply filter_all. intros y _. apply not_elem_of_nil.
  - rewrite IH, filter_app. f_equal. f_equal. apply filter_and. intros y _. rewrite not_elem_of_cons. tauto.
Qed.

Lemma filter_remove (l : list nat) j n : NoDup l -> l !! j = Some n -> filter (fun x => x <> n) l = take j l ++ drop (S j) l.
Proof.
  revert j. induction l as [|x l IH]; intros j Hd Hj; [done|]. apply NoDup_cons in Hd as [Hx Hd]. destruct j as [|j]; cbn in Hj.
  - injection Hj as ->. rewrite filter_cons_False by naive_solver. cbn. rewrite drop_0. apply filter_all. intros y Hy ->. done.
  - rewrite filter_cons_True. { cbn [take drop app]. f_equal. by apply IH. }
    intros ->. apply Hx. by eapply elem_of_list_lookup_2.
Qed.

(** The targets which are not known yet. *)
Fixpoint unknown (D ts : list nat) : list nat :=
  match ts with
  | [] => []
  | t :: ts => if decide (t ∈ D) then unknown D ts else t :: unknown (D ++ [t]) ts
  end.

Lemma unknown_firsts D ts : unknown D ts = filter (fun x => x ∉ D) (firsts ts).
Proof.
  revert D. induction ts as [|t ts IH]; intros D; [done|]. cbn [unknown firsts]. destruct (decide (t ∈ D)) as [Ht|Ht].
  - rewrite filter_cons_False by naive_solver. rewrite IH. symmetry. apply filter_and. intros x _. split; [|tauto]. intros Hx. split; [done|]. by intros ->.
  - rewrite filter_cons_True by done. f_equal. rewrite IH. symmetry. apply filter_and. intros x _. rewrite elem_of_app, elem_of_list_singleton. tauto.
Qed.

Section order.
  Context {W : Type} (g : graph W) (fl : flavour) (sr : search) (cap : option nat).
  Context (Hin : in_range g) (Hcap : roomy cap (length g)) (Hsr : search_ok sr).
  Implicit Types r : list (edge W).
  Local Notation N := (length g).

  Lemma emit_parts x s : disc (emit x s) = disc s /\ frontier (emit x s) = frontier s /\ pops (emit x s) = pops s.
  Proof. done. Qed.

  Lemma edges_loop_frontier s s' D n r ks dist m :
    knows N (disc s) D -> (forall k e, r !! k = Some e -> tgt e < N) -> edges_loop fl cap n r ks dist m s = Ok s' ->
    frontier s' = frontier s ++ unknown D (omap (fun k => tgt <$> r !! k) ks) /\ pops s' = pops s.
  Proof.
    intros Hk Hr. revert s D dist m Hk. induction ks as [|k ks IH]; intros s D dist m Hk H; cbn [edges_loop] in H.
    { injection H as <-. cbn. by rewrite app_nil_r. }
    unfold rget at 1 in H. destruct (r !! k) as [e|] eqn:He; [|done]. cbn [rbind] in H.
    destruct (classify fl (procd s) n k dist m e) as [c| | |]; try done. cbn [rbind] in H.
    assert (omap (fun k0 => tgt <$> r !! k0) (k :: ks) = tgt e :: omap (fun k0 => tgt <$> r !! k0) ks) as -> by (cbn; by rewrite He).
    cbn [unknown]. pose proof (Hr k e He) as Ht.
    rewrite (knows_get N (disc (emit c.1 s)) D (tgt e) Hk Ht) in H. cbn [rbind] in H. destruct (decide (tgt e ∈ D)) as [Hd|Hd].
    - rewrite bool_decide_eq_true_2 in H by done. cbn [rbind] in H. by apply (IH (emit c.1 s) D) in H.
    - rewrite bool_decide_eq_false_2 in H by done. destruct (knows_set N (disc (emit c.1 s)) D (tgt e) Hk Ht) as (b & Hb & Hkb).
      unfold register in H. rewrite Hb in H. cbn [rbind] in H. unfold push_node in H.
      set (s2 := TState b _ _ _ _ _ _) in H. set (s3 := TState _ _ _ _ (frontier s2 ++ [tgt e]) _ _) in H.
      assert (Hpush : exists x, Ok x = (match cap with Some c => if length (frontier s2) <? c then Ok s3 else Throw LogicError | None => Ok s3 end)
        /\ edges_loop fl cap n r ks (S dist) c.2 x = Ok s' /\ x = s3).
      { destruct cap as [q|]; [destruct (length (frontier s2) <? q); [|done]|]; exists s3; done. }
      destruct Hpush as (x & _ & Hx & ->). apply (IH s3 (D ++ [tgt e])) in Hx as [-> ->]; [|done]. unfold s3, s2. cbn. by rewrite <- app_assoc.
  Qed.

  Lemma targets_positions n : omap (fun k => tgt <$> row g n !! k) (positions sr (row g n)) = targets sr g n.
  Proof.
    assert (H : forall r, omap (fun k => tgt <$> r !! k) (seq 0 (length r)) = map tgt r).
    { intros r. induction r as [|e r IH]; [done|]. cbn [length seq]. cbn. f_equal. rewrite <- IH, <- seq_shift. clear.
      induction (seq 0 (length r)) as [|k l IH]; [done|]. cbn. rewrite IH. done. }
    assert (Hr : forall (f : nat -> option nat) l, omap f (reverse l) = reverse (omap f l)).
    { intros f l. induction l as [|k l IH]; [done|]. rewrite reverse_cons, omap_app, IH. cbn [omap list_omap]. destruct (f k); [by rewrite reverse_cons|].
      by rewrite app_nil_r. }
    unfold positions, targets. destruct sr; [apply H| |apply H]. by rewrite Hr, H.
  Qed.

  Lemma step_frontier s D n s0 s' :
    knows N (disc s) D -> pop_node sr s = Ok (n, s0) -> inner_loop fl sr cap g n s0 = Ok s' ->
    frontier s' = (take (pick sr s) (frontier s) ++ drop (S (pick sr s)) (frontier s)) ++ unknown D (targets sr g n) /\ pops s' = S (pops s).
  Proof.
    intros Hk Hp Hi. unfold pop_node in Hp. destruct (rget (frontier s) (pick sr s)) as [x| | |]; try done. cbn [rbind] in Hp. injection Hp as -> <-.
    unfold inner_loop in Hi. destruct (Nat.ltb_spec n N) as [Hn|]; [|done]. rewrite rget_row in Hi by done. cbn [rbind] in Hi.
    match type of Hi with context [edges_loop _ _ _ _ _ _ _ ?z] => set (s1 := z) in Hi end.
    destruct (edges_loop fl cap n (row g n) (positions sr (row g n)) 0 true s1) as [s2| | |] eqn:He; try done. cbn [rbind] in Hi.
    apply (edges_loop_frontier s1 s2 D) in He as [Hf Hq]; [|done|].
    2:{ intros k e Hr. apply (Hin n). by eapply elem_of_list_lookup_2. }
    rewrite targets_positions in Hf. destruct (rset (procd (emit (After n) s2)) n true) as [p| | |]; try done. cbn [rbind] in Hi. injection Hi as <-. cbn. rewrite Hf, Hq. done.
  Qed.

  (** What is in the container. *)
  Definition waiting (start : nat) (P f : list nat) : Prop :=
    f = fresh sr g P
    \/ exists st, fresh sr g P = [] /\ f = [st] /\ if decide (P = []) then st = start else st ∉ P /\ forall u, u < st -> u ∈ P.

  Definition seen (P : list nat) : list nat := concat (map (targets sr g) P).

  Lemma seen_snoc P n : seen (P ++ [n]) = seen P ++ targets sr g n.
  Proof. unfold seen. rewrite map_app, concat_app. cbn. by rewrite app_nil_r. Qed.

  Lemma fresh_snoc P n D : n ∈ D -> (forall x, x ∈ D <-> x ∈ P \/ x ∈ seen P \/ x = n) ->
    fresh sr g (P ++ [n]) = filter (fun x => x <> n) (fresh sr g P) ++ unknown D (targets sr g n).
  Proof.
    intros Hn HD. unfold fresh. fold (seen (P ++ [n])). fold (seen P). rewrite seen_snoc, firsts_app, filter_app. f_equal.
    - symmetry. apply filter_and. intros x _. rewrite elem_of_app, elem_of_list_singleton. tauto.
    - rewrite unknown_firsts. apply filter_and. intros x _. rewrite elem_of_app, elem_of_list_singleton, HD. tauto.
  Qed.

  Lemma elem_of_fresh P x : x ∈ fresh sr g P <-> x ∈ seen P /\ x ∉ P.
  Proof. unfold fresh. rewrite elem_of_list_filter, elem_of_firsts. unfold seen. tauto. Qed.

  Lemma drain_order fuel start s D P s' :
    good g s D P -> D ≡ₚ P ++ frontier s -> waiting start P (frontier s) -> pops s = length P ->
    drain fuel fl sr cap g s = Ok s' ->
    exists P', out s' = out s ++ tour g fl sr P P' /\ fresh sr g (P ++ P') = [] /\ pops s' = length (P ++ P')
      /\ forall i v, P' !! i = Some v -> comes_next sr g start (P ++ take i P') v.
  Proof.
    revert s D P. induction fuel as [|fuel IH]; intros s D P Hg Hp Hw Hq H; cbn [drain] in H.
    - destruct (frontier s) as [|y f] eqn:Hf; [|done]. injection H as <-. exists []. rewrite app_nil_r. cbn [tour]. rewrite app_nil_r.
      split; [done|]. split; [|split; [done|by intros i v]]. destruct Hw as [Hw|(st & Hw & _)]; done.
    - destruct (frontier s) as [|y f] eqn:Hf.
      { injection H as <-. exists []. rewrite app_nil_r. cbn [tour]. rewrite app_nil_r.
        split; [done|]. split; [|split; [done|by intros i v]]. destruct Hw as [Hw|(st & Hw & _)]; done. }
      assert (Hne : frontier s <> []) by by rewrite Hf. rewrite <- Hf in Hp, Hw.
      destruct (step_ok g fl sr cap Hin Hcap Hsr s D P Hg Hp Hne) as (s0 & s1 & n & D' & Hpop & Hin1 & Hn & H1 & Hf1 & HnN & HnP & Ho1 & Hr1 & Ht1 & Hb1).
      rewrite Hpop in H. cbn [rbind fst snd] in H. rewrite Hin1 in H. cbn [rbind] in H.
      destruct (step_frontier s D n s0 s1 (good_disc _ _ _ _ Hg) Hpop Hin1) as [Hfr Hpp].
      assert (Hp1 : D ++ D' ≡ₚ (P ++ [n]) ++ frontier s1).
      { rewrite Hf1, Hp, <- !app_assoc. apply Permutation_app_head.
        etrans; [apply Permutation_app_tail, (take_out_perm (frontier s) (pick sr s) n Hn)|]. cbn [app]. by rewrite <- app_assoc. }
      assert (HnD : n ∈ D). { rewrite Hp. apply elem_of_app. right. by eapply elem_of_list_lookup_2. }
      assert (Hw1 : frontier s1 = fresh sr g (P ++ [n])).
      { rewrite Hfr. rewrite (fresh_snoc P n D HnD).
        - f_equal. destruct Hw as [Hw|(st & Hw & Hw2 & _)].
          + rewrite Hw in Hn |- *. symmetry. apply filter_remove; [|done]. unfold fresh. apply NoDup_filter, NoDup_firsts.
          + rewrite Hw2 in Hn |- *. rewrite Hw. destruct (pick sr s) as [|j]; done.
        - intros x. rewrite Hp, elem_of_app. destruct Hw as [Hw|(st & Hw & Hw2 & _)].
          + assert (n ∈ fresh sr g P) as Hnf by (rewrite <- Hw; by eapply elem_of_list_lookup_2). rewrite Hw, elem_of_fresh.
            apply elem_of_fresh in Hnf. destruct (decide (x ∈ P)); naive_solver.
          + rewrite Hw2 in Hn |- *. destruct (pick sr s) as [|j]; [|done]. injection Hn as <-. rewrite elem_of_list_singleton.
            split; [tauto|]. intros [?|[Hx|?]]; [by left| |by right]. left. destruct (decide (x ∈ P)) as [|Hx']; [done|].
            exfalso. assert (x ∈ fresh sr g P) as Hxf by by apply elem_of_fresh. rewrite Hw in Hxf. by apply elem_of_nil in Hxf. }
      destruct (IH s1 (D ++ D') (P ++ [n]) H1 Hp1) as (P' & Ho & Hfin & Hpl & Hnext); [by left| |done|].
      { rewrite app_length. cbn. lia. }
      rewrite <- app_assoc in Hfin, Hpl. exists (n :: P'). split; [by rewrite Ho, Ho1, <- app_assoc|]. split; [done|]. split; [done|].
      intros [|i] v Hv; cbn in Hv.
      + injection Hv as <-. cbn [take]. rewrite app_nil_r. unfold comes_next. destruct Hw as [Hw|(st & Hw & Hw2 & Hst)].
        * destruct (fresh sr g P) as [|z l] eqn:Hfp; [by rewrite Hw in Hne|]. rewrite Hw in Hn. rewrite <- Hn. f_equal.
          unfold choice, pick. rewrite Hq, Hw. done.
        * rewrite Hw. rewrite Hw2 in Hn. destruct (pick sr s) as [|j]; [|done]. injection Hn as <-. done.
      + cbn [take]. specialize (Hnext i v Hv). by rewrite <- app_assoc in Hnext.
  Qed.

  Context (find_all : bool) (start : nat).

  Lemma next_start_least s P i s' : between g s P -> P <> [] -> (find_all = false -> P = []) -> length P < N ->
    next_start find_all start s = Ok (i, s') -> (forall u, u < i -> u ∈ P) /\ pops s' = pops s.
  Proof.
    intros H HP Hone Hl Hn. unfold next_start in Hn.
    assert (find_all = true) as -> by (destruct find_all; [done|]; exfalso; by apply HP, Hone).
    rewrite (good_num _ _ _ _ (bt_good _ _ _ H)) in Hn. destruct (Nat.eqb_spec (length P) 0) as [E|_]; [by apply nil_length_inv in E|]. cbn [andb negb] in Hn.
    destruct (skip_ok g (S (length (disc s) - restart s)) (disc s) P (restart s)) as (k & Hk & _ & _ & Hk2).
    - apply (good_disc _ _ _ _ (bt_good _ _ _ H)).
    - apply (bt_restart _ _ _ H).
    - destruct (decide (Forall (fun x => x ∈ P) (seq 0 N))) as [Hall|Hnot].
      * exfalso. assert (length (seq 0 N) <= length P); [|rewrite seq_length in *; lia].
        apply submseteq_length, NoDup_submseteq; [apply NoDup_ListNoDup, seq_NoDup|]. by apply Forall_forall.
      * apply not_Forall_Exists in Hnot; [|apply _]. apply Exists_exists in Hnot as (x & Hx & Hnx).
        apply elem_of_list_In, in_seq in Hx. exists x. split; [lia|done].
    - destruct (good_disc _ _ _ _ (bt_good _ _ _ H)) as [-> _]. lia.
    - rewrite Hk in Hn. cbn [rbind] in Hn. injection Hn as <- <-. done.
  Qed.

  Lemma next_start_first s : between g s [] -> next_start find_all start s = Ok (start, s).
  Proof. intros H. unfold next_start. rewrite (good_num _ _ _ _ (bt_good _ _ _ H)). by rewrite andb_false_r. Qed.

  Lemma searches_order fuel s P s' :
    between g s P -> length P < N -> start < N -> (find_all = false -> P = []) -> fresh sr g P = [] -> pops s = length P ->
    searches fuel fl sr cap find_all start g s = Ok s' ->
    exists P', out s' = out s ++ tour g fl sr P P' /\ forall i v, P' !! i = Some v -> comes_next sr g start (P ++ take i P') v.
  Proof.
    revert s P. induction fuel as [|fuel IH]; intros s P H Hl Hs Hone Hfresh Hq Hok; [done|]. cbn [searches] in Hok.
    destruct (next_start_ok g find_all start s P H Hl Hs Hone) as (i & s0 & Hn & Hi & Hni & H0 & Ho0 & Hhd).
    assert (Hleast : (if decide (P = []) then i = start else i ∉ P /\ forall u, u < i -> u ∈ P) /\ pops s0 = pops s).
    { destruct (decide (P = [])) as [->|HP].
      - rewrite next_start_first in Hn by done. by injection Hn as <- <-.
      - destruct (next_start_least s P i s0 H HP Hone Hl Hn). done. }
    destruct Hleast as [Hleast Hq0]. rewrite Hn in Hok. cbn [rbind fst snd] in Hok.
    destruct (one_search g fl sr cap Hin Hcap Hsr s0 P i H0 Hi Hni) as (s1 & s2 & s3 & P1 & Hs1 & Hs2 & Hs3 & Hg2 & Hf2 & H3 & Ho3 & Hre).
    rewrite Hs1 in Hok. cbn [rbind] in Hok. rewrite Hs2 in Hok. cbn [rbind] in Hok. rewrite Hs3 in Hok. cbn [rbind] in Hok.
    assert (Hparts : out s2 = out s0 /\ pops s2 = pops s0).
    { unfold register in Hs2. destruct (rset (disc s1) i true) as [b| | |]; try done. cbn [rbind] in Hs2. injection Hs2 as <-. cbn.
      unfold push_node in Hs1. destruct cap as [c|]; [destruct (_ <? _); [|done]|]; by injection Hs1 as <-. }
    destruct Hparts as [Ho2 Hp2].
    destruct (drain_order N start s2 (P ++ [i]) P s3 Hg2) as (P' & Ho & Hfin & Hpl & Hnext).
    { by rewrite Hf2. } { right. exists i. by rewrite Hf2. } { lia. } { done. }
    assert (P' = i :: P1) as ->.
    { rewrite Ho2 in Ho. rewrite Ho3 in Ho. apply app_inv_head in Ho.
      destruct (tour_events g fl sr P P') as [<- _]. destruct (tour_events g fl sr P (i :: P1)) as [<- _]. congruence. }
    rewrite (good_num _ _ _ _ (bt_good _ _ _ H3)) in Hok.
    destruct (negb find_all || (length (P ++ i :: P1) =? N)) eqn:Hterm.
    - injection Hok as <-. exists (i :: P1). split; [|done]. by rewrite Ho3, Ho0.
    - apply orb_false_iff in Hterm as [Hfa Hlen]. apply negb_false_iff in Hfa. apply Nat.eqb_neq in Hlen.
      destruct (IH s3 (P ++ i :: P1) H3) as (P2 & Ho' & Hnext'); [|done|congruence|done|done|done|].
      { pose proof (NoDup_bounded _ N (good_nodup _ _ _ _ (bt_good _ _ _ H3)) (good_lt _ _ _ _ (bt_good _ _ _ H3))). lia. }
      exists ((i :: P1) ++ P2). split.
      + rewrite Ho', Ho3, Ho0, <- app_assoc. f_equal. by rewrite tour_app.
      + intros k v Hv. apply lookup_app_Some in Hv as [Hv|[Hk Hv]].
        * pose proof (lookup_lt_Some _ _ _ Hv). rewrite take_app_le by lia. by apply Hnext.
        * rewrite take_app_ge by lia. rewrite app_assoc. by apply Hnext'.
  Qed.

  Lemma traverse_order es i v : start < N -> traverse fl sr cap find_all start g = Ok es -> befores es !! i = Some v ->
    comes_next sr g start (take i (befores es)) v.
  Proof.
    intros Hs He Hv. unfold traverse in He. destruct (Nat.ltb_spec start N); [|lia].
    destruct (searches N fl sr cap find_all start g (start_state g)) as [s'| | |] eqn:Hok; try done. cbn [rbind] in He. injection He as <-.
    destruct (searches_order N (start_state g) [] s') as (vs & Ho & Hnext); [| |done|done|done|done|done|].
    - split; [|done| |]; cbn.
      + split; cbn; [apply knows_nil|apply knows_nil|done|constructor|]. intros x Hx. by apply elem_of_nil in Hx.
      + intros u e Hu. by apply elem_of_nil in Hu.
      + lia.
    - cbn. lia.
    - rewrite Ho in Hv |- *. cbn [app start_state out] in Hv |- *. destruct (tour_events g fl sr [] vs) as [Hb _]. rewrite Hb in Hv |- *.
      by apply Hnext.
  Qed.
End order.

Lemma comes_next_priority {W} (g : graph W) priority choose start vs v : by_priority priority choose ->
  comes_next (PriorityFirst choose) g start vs v -> forall u, u ∉ vs -> (exists w e, w ∈ vs /\ e ∈ row g w /\ tgt e = u) ->
  priority u <= priority v.
Proof.
  intros Hp Hc u Hu (w & e & Hw & He & Ht).
  assert (Hf : u ∈ fresh (PriorityFirst choose) g vs).
  { apply elem_of_fresh. split; [|done]. unfold seen. apply elem_of_list_In, in_concat. exists (map tgt (row g w)). split.
    - apply in_map_iff. exists w. split; [done|]. by apply elem_of_list_In.
    - apply elem_of_list_In. rewrite <- Ht. by apply elem_of_list_fmap_1. }
  unfold comes_next in Hc. destruct (fresh (PriorityFirst choose) g vs) as [|y l] eqn:Hl; [by apply elem_of_nil in Hf|].
  destruct (Hp (length vs) (y :: l)) as (v' & Hv' & Hmax); [done|]. cbn [choice] in Hc. rewrite Hc in Hv'. injection Hv' as <-. by apply Hmax.
Qed.

Section deep.
  Context {W : Type} (g : graph W) (Hin : in_range g).
  Implicit Types e : edge W.
  Local Notation N := (length g).

  Definition shut (P D : list nat) : Prop := forall w e, w ∈ P -> e ∈ row g w -> tgt e ∈ D.

  Definition visit_order (visit : nat -> tstate -> res tstate) : Prop :=
    forall s D0 n s', dgood g s (D0 ++ [n]) -> visit n s = Ok s' ->
      exists D', dgood g s' (D0 ++ n :: D') /\ restart s' = restart s /\ befores (out s') = befores (out s) ++ n :: D'
        /\ shut (n :: D') (D0 ++ n :: D') /\ forall i v, D' !! i = Some v -> goes_deeper g (D0 ++ n :: take i D') v.

  Lemma shut_mono P D D' : shut P D -> shut P (D ++ D').
  Proof. intros H w e Hw He. apply elem_of_app. left. by eapply H. Qed.

  Lemma dfs_edges_order visit n len a s D0 Dn s' :
    visit_order visit -> dgood g s (D0 ++ n :: Dn) -> shut Dn (D0 ++ n :: Dn) -> a + len = length (row g n) ->
    (forall k e, k < a -> row g n !! k = Some e -> tgt e ∈ D0 ++ n :: Dn) ->
    dfs_edges visit n (row g n) (seq a len) s = Ok s' ->
    exists D', dgood g s' (D0 ++ n :: Dn ++ D') /\ restart s' = restart s /\ befores (out s') = befores (out s) ++ D'
      /\ shut (n :: Dn ++ D') (D0 ++ n :: Dn ++ D') /\ forall i v, D' !! i = Some v -> goes_deeper g (D0 ++ n :: Dn ++ take i D') v.
  Proof.
    intros Hv. revert a s Dn. induction len as [|len IH]; intros a s Dn Hg Hsh Hlen Hdone H; cbn [seq dfs_edges] in H.
    - injection H as <-. exists []. rewrite !app_nil_r. split; [done|]. split; [done|]. split; [done|]. split; [|by intros i v].
      intros w e Hw He. apply elem_of_cons in Hw as [->|Hw]; [|by eapply Hsh]. apply elem_of_list_lookup in He as [k Hk].
      apply (Hdone k); [|done]. apply lookup_lt_Some in Hk. lia.
    - destruct (lookup_in_range (row g n) a) as [e He]; [lia|]. unfold rget at 1 in H. rewrite He in H. cbn [rbind] in H.
      assert (Ht : tgt e < N). { apply (Hin n). by eapply elem_of_list_lookup_2. }
      rewrite (knows_get N _ _ _ (dg_disc _ _ _ Hg) Ht) in H. cbn [rbind] in H.
      destruct (decide (tgt e ∈ D0 ++ n :: Dn)) as [Hd|Hd].
      + rewrite bool_decide_true in H by done. cbn [rbind] in H. apply (IH (S a) s Dn) in H; [done|done|done|lia|].
        intros k e' Hk He'. destruct (decide (k = a)) as [->|]; [|apply (Hdone k); [lia|done]]. congruence.
      + rewrite bool_decide_false in H by done.
        destruct (dregister_ok g (emit (First n a) s) _ (tgt e) (dgood_emit _ _ _ _ Hg) Ht Hd) as (s1 & Hs1 & H1 & Ho1 & Hr1).
        rewrite Hs1 in H. cbn [rbind] in H. destruct (visit (tgt e) s1) as [s2| | |] eqn:Hs2; try done. cbn [rbind] in H.
        destruct (Hv s1 _ _ _ H1 Hs2) as (D2 & H2 & Hr2 & Hb2 & Hsh2 & Hord2). rewrite <- app_assoc in H2, Hsh2. cbn [app] in H2, Hsh2.
        apply (IH (S a) s2 (Dn ++ tgt e :: D2)) in H as (D3 & H3 & Hr3 & Hb3 & Hsh3 & Hord3).
        * rewrite <- app_assoc in H3, Hsh3. cbn [app] in H3, Hsh3. exists ((tgt e :: D2) ++ D3). cbn [app].
          split; [done|]. split; [by rewrite Hr3, Hr2, Hr1|]. split.
          { rewrite Hb3, Hb2, Ho1. cbn [emit out]. rewrite befores_app. cbn. by rewrite app_nil_r, <- app_assoc. }
          split; [done|]. change (tgt e :: D2 ++ D3) with ((tgt e :: D2) ++ D3). intros i v Hi.
          apply lookup_app_Some in Hi as [Hi|[Hl Hi]].
          -- pose proof (lookup_lt_Some _ _ _ Hi). rewrite take_app_le by lia. destruct i as [|i]; cbn in Hi.
             ++ injection Hi as <-. cbn [take]. rewrite app_nil_r. exists D0, n, Dn, (map tgt (take a (row g n))), (map tgt (drop (S a) (row g n))).
                split; [done|]. split. { rewrite <- (take_drop_middle (row g n) a e He) at 1. by rewrite map_app. }
                split; [done|]. split; [|done]. intros t Hin'. apply elem_of_list_fmap in Hin' as (e' & -> & He').
                apply elem_of_list_lookup in He' as [k Hk]. apply lookup_take_Some in Hk as [Hk Hka]. by apply (Hdone k).
             ++ specialize (Hord2 i v Hi). rewrite <- app_assoc in Hord2. done.
          -- rewrite take_app_ge by done. specialize (Hord3 _ v Hi). rewrite <- app_assoc in Hord3. done.
        * done.
        * intros w e' Hw He'. apply elem_of_app in Hw as [Hw|Hw].
          -- specialize (Hsh w e' Hw He'). rewrite elem_of_app, elem_of_cons in Hsh. rewrite elem_of_app, elem_of_cons, elem_of_app. tauto.
          -- by eapply Hsh2.
        * lia.
        * intros k e' Hk He'. rewrite elem_of_app, elem_of_cons, elem_of_app, elem_of_cons. destruct (decide (k = a)) as [->|].
          -- assert (e' = e) as -> by congruence. tauto.
          -- specialize (Hdone k e' ltac:(lia) He'). rewrite elem_of_app, elem_of_cons in Hdone. tauto.
  Qed.

  Lemma dfs_order m : visit_order (dfs m g).
  Proof.
    induction m as [|m IH]; intros s D0 n s' Hg H; [done|]. cbn [dfs] in H.
    destruct (Nat.ltb_spec n N) as [Hn|]; [|done]. rewrite rget_row in H by done. cbn [rbind] in H.
    destruct (dfs_edges (dfs m g) n (row g n) (seq 0 (length (row g n))) (emit (Before n) s)) as [s1| | |] eqn:Hs1; try done. cbn [rbind] in H.
    apply (dfs_edges_order (dfs m g) n _ 0 (emit (Before n) s) D0 []) in Hs1 as (D' & H1 & Hr1 & Hb1 & Hsh & Hord).
    - cbn [app] in H1, Hsh, Hord. unfold rset in H. destruct (lookup_in_range (procd (emit (After n) s1)) n) as [b Hb].
      { cbn. by rewrite (dg_procd _ _ _ H1). }
      rewrite Hb in H. cbn [rbind] in H. injection H as <-. exists D'. split; [|split; [|split; [|split]]].
      + destruct H1. split; cbn; try done. by rewrite insert_length.
      + cbn. by rewrite Hr1.
      + cbn. rewrite befores_app, Hb1. cbn. rewrite befores_app. cbn. rewrite app_nil_r, <- app_assoc. done.
      + done.
      + done.
    - done.
    - by apply dgood_emit.
    - intros w e Hw. by apply elem_of_nil in Hw.
    - done.
    - intros k e Hk. lia.
  Qed.

  Context (find_all : bool) (start : nat).

  Lemma dnext_start_least s P i s' : dbetween g s P -> P <> [] -> (find_all = false -> P = []) -> length P < N ->
    next_start find_all start s = Ok (i, s') -> forall u, u < i -> u ∈ P.
  Proof.
    intros H HP Hone Hl Hn. unfold next_start in Hn.
    assert (find_all = true) as -> by (destruct find_all; [done|]; exfalso; by apply HP, Hone).
    rewrite (dg_num _ _ _ (db_good _ _ _ H)) in Hn. destruct (Nat.eqb_spec (length P) 0) as [E|_]; [by apply nil_length_inv in E|]. cbn [andb negb] in Hn.
    destruct (skip_ok g (S (length (disc s) - restart s)) (disc s) P (restart s)) as (k & Hk & _ & _ & Hk2).
    - apply (dg_disc _ _ _ (db_good _ _ _ H)).
    - apply (db_restart _ _ _ H).
    - destruct (decide (Forall (fun x => x ∈ P) (seq 0 N))) as [Hall|Hnot].
      * exfalso. assert (length (seq 0 N) <= length P); [|rewrite seq_length in *; lia].
        apply submseteq_length, NoDup_submseteq; [apply NoDup_ListNoDup, seq_NoDup|]. by apply Forall_forall.
      * apply not_Forall_Exists in Hnot; [|apply _]. apply Exists_exists in Hnot as (x & Hx & Hnx).
        apply elem_of_list_In, in_seq in Hx. exists x. split; [lia|done].
    - destruct (dg_disc _ _ _ (db_good _ _ _ H)) as [-> _]. lia.
    - rewrite Hk in Hn. cbn [rbind] in Hn. injection Hn as <- <-. done.
  Qed.

  Lemma dfs_searches_order fuel s P s' :
    dbetween g s P -> length P < N -> start < N -> (find_all = false -> P = []) -> shut P P -> befores (out s) = P ->
    dfs_searches fuel find_all start g s = Ok s' ->
    exists P', befores (out s') = P ++ P' /\ forall i v, P' !! i = Some v -> comes_next_deep g start (P ++ take i P') v.
  Proof.
    revert s P. induction fuel as [|fuel IH]; intros s P H Hl Hs Hone Hsh Hb Hok; [done|]. cbn [dfs_searches] in Hok.
    destruct (dnext_start_ok g find_all start s P H Hl Hs Hone) as (i & s0 & Hn & Hi & Hni & H0 & Ho0 & Hhd).
    assert (Hleast : if decide (P = []) then i = start else i ∉ P /\ forall u, u < i -> u ∈ P).
    { destruct (decide (P = [])) as [HP|HP]; [by apply Hhd|]. split; [done|]. exact (dnext_start_least s P i s0 H HP Hone Hl Hn). }
    rewrite Hn in Hok. cbn [rbind fst snd] in Hok.
    destruct (dregister_ok g s0 P i (db_good _ _ _ H0) Hi Hni) as (s1 & Hs1 & H1 & Ho1 & Hr1). rewrite Hs1 in Hok. cbn [rbind] in Hok.
    destruct (dfs N g i s1) as [s2| | |] eqn:Hs2; try done. cbn [rbind] in Hok.
    destruct (dfs_order N s1 P i s2 H1 Hs2) as (D' & H2 & Hr2 & Hb2 & Hsh2 & Hord2).
    assert (Hnext : forall k v, (i :: D') !! k = Some v -> comes_next_deep g start (P ++ take k (i :: D')) v).
    { intros [|k] v Hk; cbn in Hk.
      - injection Hk as <-. cbn [take]. rewrite app_nil_r. by right.
      - left. by apply Hord2. }
    rewrite Ho1, Ho0, Hb in Hb2. rewrite (dg_num _ _ _ H2) in Hok.
    destruct (negb find_all || (length (P ++ i :: D') =? N)) eqn:Hterm.
    - injection Hok as <-. by exists (i :: D').
    - apply orb_false_iff in Hterm as [Hfa Hlen]. apply negb_false_iff in Hfa. apply Nat.eqb_neq in Hlen.
      destruct (IH s2 (P ++ i :: D')) as (P2 & Ho' & Hnext'); [| |done|congruence| |done|done|].
      { split; [done|]. rewrite Hr2, Hr1. intros j Hj. apply elem_of_app. left. by apply (db_restart _ _ _ H0). }
      { pose proof (NoDup_bounded _ N (dg_nodup _ _ _ H2) (dg_lt _ _ _ H2)). lia. }
      { intros w e Hw He. apply elem_of_app in Hw as [Hw|Hw]; [apply elem_of_app; left; by eapply Hsh|by eapply Hsh2]. }
      exists ((i :: D') ++ P2). split; [by rewrite Ho', <- app_assoc|].
      intros k v Hv. apply lookup_app_Some in Hv as [Hv|[Hk Hv]].
      + pose proof (lookup_lt_Some _ _ _ Hv). rewrite take_app_le by lia. by apply Hnext.
      + rewrite take_app_ge by lia. rewrite app_assoc. by apply Hnext'.
  Qed.

  Lemma traverse_dfs_order es i v : start < N -> traverse_dfs find_all start g = Ok es -> befores es !! i = Some v ->
    comes_next_deep g start (take i (befores es)) v.
  Proof.
    intros Hs He Hv. unfold traverse_dfs in He. destruct (Nat.ltb_spec start N); [|lia].
    destruct (dfs_searches N find_all start g (start_state g)) as [s'| | |] eqn:Hok; try done. cbn [rbind] in He. injection He as <-.
    destruct (dfs_searches_order N (start_state g) [] s') as (vs & Ho & Hnext); [| |done|done| |done|done|].
    - split; cbn; [|lia]. split; cbn; [apply knows_nil|apply replicate_length|done|constructor|]. intros x Hx. by apply elem_of_nil in Hx.
    - cbn. lia.
    - intros w e Hw. by apply elem_of_nil in Hw.
    - rewrite Ho in Hv |- *. by apply Hnext.
  Qed.
End deep.

Lemma traverse_priority {W} fl cap find_all start (g : graph W) priority choose es i v u :
  in_range g -> roomy cap (order g) -> by_priority priority choose -> start < order g ->
  traverse fl (PriorityFirst choose) cap find_all start g = Ok es -> befores es !! i = Some v ->
  u ∉ take i (befores es) -> (exists w e, w ∈ take i (befores es) /\ e ∈ row g w /\ tgt e = u) -> priority u <= priority v.
Proof.
  intros Hin Hcap Hp Hs He Hv. eapply comes_next_priority; [done|]. eapply (traverse_order g fl _ cap); try done.
  intros k l Hl. destruct (Hp k l Hl) as (x & Hx & _). by apply lookup_lt_Some in Hx.
Qed.

(** Examples. *)
Definition ex_order : graph nat := [[Edge 2 0 0; Edge 1 0 0]; [Edge 3 0 0]; [Edge 3 0 0; Edge 4 0 0]; [Edge 0 0 0]; []; [Edge 0 0 0]].

Fixpoint highest (l : list nat) : nat :=
  match l with
  | [] => 0
  | x :: l => if forallb (fun y => y <=? x) l then 0 else S (highest l)
  end.

Lemma highest_ok : by_priority id (fun _ => highest).
Proof.
  intros _ l. induction l as [|x l IH]; [done|]. intros _. cbn [highest]. destruct (forallb (fun y => y <=? x) l) eqn:Hf.
  - exists x. split; [done|]. intros u Hu. apply elem_of_cons in Hu as [->|Hu]; [done|]. unfold id.
    rewrite forallb_forall in Hf. apply Nat.leb_le, Hf. by apply elem_of_list_In.
  - destruct l as [|y l]; [done|]. destruct IH as (v & Hv & Hmax); [done|]. exists v. split; [done|].
    intros u Hu. apply elem_of_cons in Hu as [->|Hu]; [|by apply Hmax].
    destruct (decide (x <= v)) as [|Hx]; [done|]. exfalso. apply not_true_iff_false in Hf. apply Hf. apply forallb_forall.
    intros z Hz%elem_of_list_In. specialize (Hmax z Hz). unfold id in *. apply Nat.leb_le. lia.
Qed.

Lemma ex_order_ok : in_range ex_order.
Proof. intros n e. unfold row, ex_order. do 6 (destruct n as [|n]; [cbn; rewrite ?elem_of_cons, elem_of_nil; intros Hx; destruct_or?; subst; cbn; lia|]). cbn. by rewrite elem_of_nil. Qed.

Definition nodes_of (x : res (list event)) : list nat := match x with Ok es => befores es | _ => [] end.

Lemma ex_order_nodes :
  nodes_of (traverse Directed BreadthFirst None true 3 ex_order) = [3; 0; 2; 1; 4; 5]
  /\ nodes_of (traverse Directed PseudoDepthFirst None true 3 ex_order) = [3; 0; 2; 4; 1; 5]
  /\ nodes_of (traverse_dfs true 3 ex_order) = [3; 0; 2; 4; 1; 5]
  /\ nodes_of (traverse Directed (PriorityFirst (fun _ => highest)) None false 0 ex_order) = [0; 2; 4; 3; 1].
Proof. by vm_compute. Qed.

Lemma ex_order_next : comes_next PseudoDepthFirst ex_order 3 [3; 0] 2 /\ comes_next BreadthFirst ex_order 3 [3; 0; 2; 1; 4] 5.
Proof.
  split; [done|]. change (5 ∉ [3; 0; 2; 1; 4] /\ forall u, u < 5 -> u ∈ [3; 0; 2; 1; 4]). split.
  - apply (bool_decide_unpack _). by vm_compute.
  - intros u Hu. rewrite !elem_of_cons. lia.
Qed.
