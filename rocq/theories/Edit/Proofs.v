(** Proofs about the editing functions. *)
From Coq Require Import Ascii String.
From stdpp Require Import list sets sorting.
From Verif.Base Require Import Outcome Compare ListLemmas.
From Verif.Text Require Import Model Spec Proofs.
From Verif.Edit Require Import Model Spec.
Local Open Scope res_scope.

(** ** Searching *)

(** A pattern whose first character occurs only there does not overlap itself. *)
Lemma first_after c q pre post : c ∉ q -> ~ occurs (c :: q) pre -> first_at (c :: q) (pre ++ (c :: q) ++ post) (List.length pre).
Proof.
  intros Hc Hn. split; [by exists pre, post|]. intros j (p1&p2&E&<-).
  destruct (decide (List.length pre <= List.length p1)) as [|Hlt]; [done|]. exfalso.
  assert (exists g, pre = p1 ++ g /\ g <> []) as (g&->&Hg).
  { exists (drop (List.length p1) pre). split.
    - rewrite <- (take_drop (List.length p1) pre) at 1. f_equal.
      assert (take (List.length p1) (pre ++ (c :: q) ++ post) = p1) as H by (rewrite E; by rewrite take_app).
      rewrite take_app_le in H by lia. done.
    - intros H. apply (f_equal List.length) in H. rewrite drop_length in H. cbn in H. lia. }
  rewrite <- app_assoc in E. apply app_inv_head in E.
  apply app_eq_inv in E as [(k&->&E)|(k&Hk&E)].
  - apply Hn. exists (List.length p1), p1, k. done.
  - destruct g as [|d g]; [done|]. injection Hk as <- ->. destruct k as [|e k]; [apply Hn; exists (List.length p1), p1, []; by rewrite !app_nil_r|].
    injection E as <- _. apply Hc. set_solver.
Qed.

Lemma find_last_spec from l :
  match find_last from l with
  | Some i => occurs_at from l i /\ forall j, occurs_at from l j -> j <= i
  | None => ~ occurs from l
  end.
Proof.
  induction l as [|c l IH]; cbn [find_last].
  - destruct (starts_with from []) eqn:E.
    + apply starts_with_spec in E as [post E]. split; [by apply occurs_at_0; exists post|]. intros j Hj. apply occurs_at_nil_r in Hj as [-> _]. lia.
    + intros [i Hi]. apply occurs_at_nil_r in Hi as [_ ->]. done.
  - destruct (find_last from l) as [i|].
    + destruct IH as [H1 H2]. split; [by apply occurs_at_S|]. intros [|j] Hj; [lia|]. specialize (H2 j (proj1 (occurs_at_S _ _ _ _) Hj)). lia.
    + destruct (starts_with from (c :: l)) eqn:E.
      * apply starts_with_spec in E as [post E]. split; [by apply occurs_at_0; exists post|]. intros [|j] Hj; [lia|].
        exfalso. apply IH. exists j. exact (proj1 (occurs_at_S _ _ _ _) Hj).
      * intros [[|i] Hi].
        -- apply occurs_at_0, starts_with_spec in Hi. congruence.
        -- apply IH. exists i. exact (proj1 (occurs_at_S _ _ _ _) Hi).
Qed.

(** [include] is [directive]. *)
Definition inc_tail : text := list_ascii_of_string "include".
Lemma directive_cons : directive = "#"%char :: inc_tail.
Proof. done. Qed.
Lemma hash_not_in : "#"%char ∉ inc_tail.
Proof. apply (bool_decide_unpack _). by vm_compute. Qed.
Lemma nl_not_in : nl ∉ directive.
Proof. apply (bool_decide_unpack _). by vm_compute. Qed.

Lemma occurs_app_l from l1 l2 : occurs from l1 -> occurs from (l1 ++ l2).
Proof. intros [i Hi]. exists i. by apply occurs_at_app_r. Qed.

(** Without line break in the pattern, occurrences do not cross one. *)
Lemma occurs_cross from w g i : nl ∉ from -> from <> [] -> ~ occurs from g -> occurs_at from (w ++ nl :: g) i -> i + List.length from <= List.length w.
Proof.
  intros Hnl Hne Hg (p1&p2&E&<-).
  apply app_eq_inv in E as [(k&->&E)|(k&->&E)].
  - apply app_eq_inv in E as [(m&->&E)|(m&->&E)].
    + destruct m as [|e m]; [rewrite app_nil_r, !app_length; lia|]. exfalso. injection E as E _. apply Hnl. rewrite E. set_solver.
    + rewrite !app_length. lia.
  - exfalso. destruct k as [|d k].
    + destruct from as [|e from]; [done|]. injection E as E _. apply Hnl. rewrite E. by left.
    + injection E as _ E. apply Hg. exists (List.length k), k, p2. done.
Qed.

Lemma directive_ne : directive <> [].
Proof. done. Qed.

Lemma free_nl g : ~ occurs directive g -> ~ occurs directive (nl :: g).
Proof.
  intros H [i Hi]. apply (occurs_cross directive [] g i nl_not_in directive_ne H) in Hi. cbn in Hi. lia.
Qed.

Lemma find_nl A w g : nl ∉ w -> find_from (A ++ w ++ nl :: g) [nl] (List.length A) = Some (List.length A + List.length w).
Proof. intros H. apply (find_from_app_Some [nl] A w g). by apply (first_at_char nl w g). Qed.

Lemma find_nl_none A w : nl ∉ w -> find_from (A ++ w) [nl] (List.length A) = None.
Proof. intros H. apply find_from_app_None. by rewrite occurs_char. Qed.

Lemma find_directive A G post : ~ occurs directive G -> find_from (A ++ G ++ directive ++ post) include (List.length A) = Some (List.length A + List.length G).
Proof. intros H. apply (find_from_app_Some directive A G post). apply first_after; [apply hash_not_in|done]. Qed.

(** ** Decomposition *)

Lemma no_nl_split (l : text) : nl ∉ l \/ exists w r, l = w ++ nl :: r /\ nl ∉ w.
Proof.
  induction l as [|c l IH]; [left; apply not_elem_of_nil|]. destruct (decide (c = nl)) as [->|Hc].
  - right. exists [], l. split; [done|apply not_elem_of_nil].
  - destruct IH as [IH|(w&r&->&Hw)]; [left; by rewrite not_elem_of_cons|]. right. exists (c :: w), r. split; [done|]. by rewrite not_elem_of_cons.
Qed.

Lemma parts_exist_aux n : forall l, List.length l < n -> exists pre cs fin, parts l pre cs fin.
Proof.
  induction n as [|n IH]; intros l Hl; [lia|]. destruct (find_first directive l) as [i|] eqn:E.
  2:{ apply find_first_None in E. exists l, [], []. split; [by rewrite app_nil_r|done|constructor|by left]. }
  apply find_first_Some in E as [(pre&post&->&<-) Hmin].
  assert (~ occurs directive pre) as Hpre.
  { intros [j Hj]. pose proof (occurs_at_len _ _ _ Hj) as Hlen. specialize (Hmin j (occurs_at_app_r _ _ _ _ Hj)).
    change (List.length directive) with 8 in Hlen. lia. }
  destruct (no_nl_split post) as [Hp|(w&r&->&Hw)].
  - exists pre, [], (directive ++ post). split; [done|done|constructor|]. right. split; [by exists post|]. rewrite not_elem_of_app. split; [apply nl_not_in|done].
  - destruct (IH r) as (pre2&cs&fin&[-> H1 H2 H3]).
    { rewrite !app_length in Hl. cbn [List.length] in Hl. lia. }
    exists pre, ((directive ++ w, pre2) :: cs), fin. split; [|done| |done].
    + f_equal. unfold with_gaps. cbn [map concat fst snd]. by rewrite <- !app_assoc.
    + constructor; [|done]. cbn [fst snd]. split; [|done]. split; [by exists w|]. rewrite not_elem_of_app. split; [apply nl_not_in|done].
Qed.

Lemma parts_exist l : exists pre cs fin, parts l pre cs fin.
Proof. apply (parts_exist_aux (S (List.length l))). lia. Qed.

(** ** Collecting *)

Fixpoint bounded (k : nat) (cs : list (text * text)) (b : nat) : Prop :=
  match cs with
  | [] => True
  | c :: cs' => k + List.length (fst c) <= b /\ bounded (k + List.length (fst c) + 1 + List.length (snd c)) cs' b
  end.

Lemma with_gaps_cons w g cs : with_gaps ((w, g) :: cs) = w ++ nl :: g ++ with_gaps cs.
Proof. unfold with_gaps. cbn [map concat fst snd]. by rewrite <- !app_assoc. Qed.

Lemma with_gaps_app cs1 cs2 : with_gaps (cs1 ++ cs2) = with_gaps cs1 ++ with_gaps cs2.
Proof. unfold with_gaps. by rewrite map_app, concat_app. Qed.

Lemma collect_spec cs : forall fuel l A G fin eb entries, l = A ++ G ++ with_gaps cs ++ fin -> ~ occurs directive G ->
  Forall (fun c => directive_line (fst c) /\ ~ occurs directive (snd c)) cs -> (fin = [] \/ directive_line fin) ->
  bounded (List.length A + List.length G) cs eb -> List.length cs < fuel ->
  collect fuel l eb (List.length A) entries = Ok (entries ++ map (fun c => fst c ++ [nl]) cs).
Proof.
  induction cs as [|[w g] cs IH]; intros fuel l A G fin eb entries Hl HG Hcs Hfin Hb Hf; (destruct fuel as [|fuel]; [lia|]); cbn [collect].
  - cbn [with_gaps map concat] in Hl. change (with_gaps []) with (@nil ascii) in Hl. cbn [app] in Hl. rewrite app_nil_r.
    destruct Hfin as [->|[[s ->] Hnl]].
    + rewrite app_nil_r in Hl. subst l. rewrite find_from_app_None; [done|exact HG].
    + subst l. rewrite find_directive by done. destruct (decide _); [|done].
      rewrite <- app_length, (app_assoc A G), find_nl_none; done.
  - apply Forall_cons in Hcs as [[[[s Hs] Hnl] Hg] Hcs]. cbn [fst snd] in *. rewrite with_gaps_cons in Hl. destruct Hb as [Hb1 Hb2]. cbn [fst snd] in Hb1, Hb2.
    assert (8 <= List.length w) as Hlen by (rewrite Hs, app_length; change (List.length directive) with 8; lia).
    assert (find_from l include (List.length A) = Some (List.length A + List.length G)) as ->.
    { subst l w. rewrite <- !app_assoc. by rewrite find_directive. }
    rewrite decide_True by lia.
    assert (l = (A ++ G) ++ w ++ nl :: g ++ with_gaps cs ++ fin) as Hl2.
    { rewrite Hl, <- !app_assoc. cbn [app]. by rewrite <- !app_assoc. }
    assert (find_from l [nl] (List.length A + List.length G) = Some (List.length A + List.length G + List.length w)) as ->.
    { rewrite Hl2, <- app_length. by apply find_nl. }
    rewrite decide_True by lia.
    replace (take _ (drop _ l)) with (w ++ [nl]).
    2:{ rewrite Hl2, <- app_length, drop_app, app_length.
        replace (List.length A + List.length G + List.length w + 1 - (List.length A + List.length G)) with (List.length (w ++ [nl])) by (rewrite app_length; cbn; lia).
        change (nl :: g ++ with_gaps cs ++ fin) with ([nl] ++ g ++ with_gaps cs ++ fin). by rewrite (app_assoc w [nl]), take_app. }
    replace (List.length A + List.length G + List.length w) with (List.length (A ++ G ++ w)) by (rewrite !app_length; lia).
    rewrite (IH fuel l (A ++ G ++ w) (nl :: g) fin eb).
    + cbn [map fst]. by rewrite <- app_assoc.
    + rewrite Hl2, <- !app_assoc. done.
    + by apply free_nl.
    + done.
    + done.
    + rewrite !app_length. cbn [List.length]. replace (_ + S (List.length g)) with (List.length A + List.length G + List.length w + 1 + List.length g) by lia. done.
    + cbn [List.length] in Hf. lia.
Qed.

Lemma bounded_app k cs w g b : k + List.length (with_gaps cs) + List.length w <= b -> bounded k (cs ++ [(w, g)]) b.
Proof.
  revert k. induction cs as [|[v h] cs IH]; intros k H; cbn [app bounded fst snd].
  - change (with_gaps []) with (@nil ascii) in H. cbn [List.length] in H. split; [lia|done].
  - rewrite with_gaps_cons in H. rewrite !app_length in H. cbn [List.length] in H. rewrite app_length in H. split; [lia|]. apply IH. lia.
Qed.

Lemma bounded_all k cs b : k + List.length (with_gaps cs) <= b -> bounded k cs b.
Proof.
  revert k. induction cs as [|[v h] cs IH]; intros k H; cbn [bounded fst snd]; [done|].
  rewrite with_gaps_cons, !app_length in H. cbn [List.length] in H. rewrite app_length in H. split; [lia|]. apply IH. lia.
Qed.

(** The line of the last directive. *)
Lemma last_line l X w g : l = X ++ w ++ nl :: g -> directive_line w -> ~ occurs directive g ->
  exists p, find_last include l = Some p /\ find_from l [nl] p = Some (List.length X + List.length w).
Proof.
  intros -> [[s Hs] Hnl] Hg. pose proof (find_last_spec include (X ++ w ++ nl :: g)) as H.
  assert (occurs_at include (X ++ w ++ nl :: g) (List.length X)) as Hocc by (exists X, (s ++ nl :: g); rewrite Hs, <- !app_assoc; done).
  destruct (find_last include (X ++ w ++ nl :: g)) as [i|]; [|by exfalso; apply H; eexists].
  destruct H as [Hi Hmax]. specialize (Hmax _ Hocc). exists i. split; [done|].
  assert (exists k, i = List.length X + k) as [k ->] by (exists (i - List.length X); lia).
  apply occurs_at_app, (occurs_cross include w g k nl_not_in directive_ne Hg) in Hi.
  rewrite <- (take_drop k w) at 1. rewrite <- app_assoc, (app_assoc X).
  replace (List.length X + k) with (List.length (X ++ take k w)) by (rewrite app_length, take_length; lia).
  rewrite find_nl.
  - f_equal. rewrite app_length, take_length, drop_length. lia.
  - intros Hin. apply Hnl. rewrite <- (take_drop k w). apply elem_of_app. by right.
Qed.

Lemma last_line_end l X w : l = X ++ w -> directive_line w -> exists p, find_last include l = Some p /\ find_from l [nl] p = None.
Proof.
  intros -> [[s Hs] Hnl]. pose proof (find_last_spec include (X ++ w)) as H.
  assert (occurs_at include (X ++ w) (List.length X)) as Hocc by (exists X, s; rewrite Hs; done).
  destruct (find_last include (X ++ w)) as [i|]; [|by exfalso; apply H; eexists].
  destruct H as [Hi Hmax]. specialize (Hmax _ Hocc). exists i. split; [done|].
  assert (exists k, i = List.length X + k) as [k ->] by (exists (i - List.length X); lia).
  apply occurs_at_app, occurs_at_len in Hi. change (List.length include) with 8 in Hi.
  rewrite <- (take_drop k w) at 1. rewrite (app_assoc X).
  replace (List.length X + k) with (List.length (X ++ take k w)) by (rewrite app_length, take_length; lia).
  apply find_nl_none. intros Hin. apply Hnl. rewrite <- (take_drop k w). apply elem_of_app. by right.
Qed.

Definition tail_of (cs : list (text * text)) (fin : text) : text :=
  match fin with
  | [] => match last cs with Some c => snd c | None => [] end
  | _ => []
  end.

Lemma add_include_parts l pre cs fin path : parts l pre cs fin ->
  add_include l path = let? sorted := std_sort include_less (new_line path :: map (fun c => fst c ++ [nl]) cs) in
                       Ok (pre ++ concat sorted ++ tail_of cs fin).
Proof.
  intros [Hl Hpre Hcs Hfin]. unfold add_include. fold (new_line path).
  change (include ++ [" "%char; quote] ++ path ++ [quote; nl]) with (new_line path).
  assert (List.length cs <= List.length (with_gaps cs)) as Hlen.
  { clear -cs. induction cs as [|[w g] cs IH]; [cbn; lia|]. rewrite with_gaps_cons, app_length. cbn [List.length]. rewrite app_length. lia. }
  destruct fin as [|c fin].
  - destruct cs as [|c0 cs0] eqn:Ecs.
    + change (with_gaps []) with (@nil ascii) in Hl. rewrite app_nil_r in Hl. subst l. pose proof (find_last_spec include pre) as H.
      destruct (find_last include pre) as [i|]; [destruct H as [H _]; exfalso; apply Hpre; by exists i|].
      cbn [rbind map]. destruct (std_sort _ _) as [sorted| | |]; cbn [rbind]; try done.
      pose proof (find_from_app_None include [] pre Hpre) as Hn. cbn [app List.length] in Hn. rewrite Hn.
      unfold splice. rewrite Nat.add_0_r, firstn_all, drop_all. done.
    + rewrite <- Ecs in *. assert (cs <> []) as Hne by (by rewrite Ecs). clear c0 cs0 Ecs.
      destruct (exists_last Hne) as (cs0&[w g]&->). clear Hne.
      pose proof Hcs as Hcs'. apply Forall_app in Hcs' as [_ Hw]. apply Forall_cons in Hw as [[Hw Hg] _]. cbn [fst snd] in Hw, Hg.
      assert (l = (pre ++ with_gaps cs0) ++ w ++ nl :: g) as Hl2.
      { rewrite Hl, app_nil_r, with_gaps_app, with_gaps_cons. change (with_gaps []) with (@nil ascii). by rewrite app_nil_r, app_assoc. }
      destruct (last_line _ _ _ _ Hl2 Hw Hg) as (p&->&->). cbn [default from_option]. unfold id.
      set (eb := List.length (pre ++ with_gaps cs0) + List.length w).
      change (collect (S (List.length l)) l eb 0) with (collect (S (List.length l)) l eb (List.length (@nil ascii))).
      rewrite (collect_spec (cs0 ++ [(w, g)]) _ l [] pre []); [|done|done|done|by left| |].
      2:{ apply bounded_app. unfold eb. rewrite app_length. cbn [List.length]. lia. }
      2:{ rewrite Hl, (app_length pre), (app_length (with_gaps _)). lia. }
      cbn [rbind app]. destruct (std_sort _ _) as [sorted| | |]; cbn [rbind]; try done.
      assert (find_from l include 0 = Some (List.length pre)) as ->.
      { destruct (cs0 ++ [(w, g)]) as [|[w0 g0] cs1] eqn:E; [by destruct cs0|]. rewrite Hl, with_gaps_cons.
        apply Forall_cons in Hcs as [[[[s Hs] _] _] _]. cbn [fst] in Hs. rewrite Hs, <- !app_assoc. apply (find_directive []). done. }
      unfold tail_of. rewrite last_snoc. cbn [snd]. f_equal. unfold splice. f_equal; [by rewrite Hl, take_app|]. f_equal.
      replace (List.length pre + (eb + 1 - List.length pre)) with (List.length (pre ++ with_gaps cs0 ++ w ++ [nl])).
      2:{ unfold eb. rewrite !app_length. cbn [List.length]. lia. }
      rewrite Hl2. change (nl :: g) with ([nl] ++ g). rewrite <- app_assoc, !app_assoc. by rewrite drop_app.
  - destruct Hfin as [?|Hfin]; [done|]. set (fin' := c :: fin) in *.
    assert (l = (pre ++ with_gaps cs) ++ fin') as Hl2 by (by rewrite Hl, app_assoc).
    destruct (last_line_end _ _ _ Hl2 Hfin) as (p&->&->). cbn [default from_option]. unfold id.
    change (collect (S (List.length l)) l (List.length l) 0) with (collect (S (List.length l)) l (List.length l) (List.length (@nil ascii))).
    rewrite (collect_spec cs _ l [] pre fin'); [|done|done|done|by right| |].
    2:{ apply bounded_all. rewrite Hl, !app_length. cbn [List.length]. lia. }
    2:{ rewrite Hl, !app_length. lia. }
    cbn [rbind app]. destruct (std_sort _ _) as [sorted| | |]; cbn [rbind]; try done.
    assert (find_from l include 0 = Some (List.length pre)) as ->.
    { destruct cs as [|[w0 g0] cs1].
      - rewrite Hl. change (with_gaps []) with (@nil ascii). destruct Hfin as [[s Hs] _]. rewrite Hs. apply (find_directive []). done.
      - rewrite Hl, with_gaps_cons.
        apply Forall_cons in Hcs as [[[[s Hs] _] _] _]. cbn [fst] in Hs. rewrite Hs, <- !app_assoc. apply (find_directive []). done. }
    f_equal. unfold splice. f_equal; [by rewrite Hl, take_app|]. f_equal. rewrite drop_ge; [done|]. assert (List.length pre <= List.length l) by (rewrite Hl, app_length; lia). lia.
Qed.

(** ** Sorting *)

Definition angled (w : text) : bool := has "<"%char w.
Definition bool_compare (a b : bool) : comparison := match a, b with false, true => Lt | true, false => Gt | _, _ => Eq end.
Lemma bool_total : total_cmp bool_compare.
Proof. split; [by intros [] []|by intros [] []|by intros [] [] []]. Qed.
Definition key_compare (v w : text) : comparison := pair_compare bool_compare text_compare (angled v, v) (angled w, w).
Lemma key_total : total_cmp key_compare.
Proof.
  pose proof (pair_total _ _ bool_total text_total) as H. split.
  - intros v w. unfold key_compare. rewrite (cmp_eq H). split; [by intros [= _ ->]|by intros ->].
  - intros v w. apply (cmp_opp H).
  - intros u v w. apply (cmp_trans H).
Qed.

Lemma has_true c w : has c w = true <-> c ∈ w.
Proof. unfold has. by destruct (decide (c ∈ w)). Qed.

Lemma balanced_has w : balanced w -> has ">"%char w = angled w.
Proof. unfold balanced, angled, has. intros H. destruct (decide (">"%char ∈ w)), (decide ("<"%char ∈ w)); tauto. Qed.

Lemma include_less_key v w : balanced w -> include_less v w = match key_compare v w with Lt => true | _ => false end.
Proof.
  intros Hw. unfold include_less, key_compare, pair_compare. rewrite (balanced_has w Hw). cbn [fst snd]. fold (angled v).
  by destruct (angled v), (angled w).
Qed.

Lemma foldr_sort l : Forall balanced l -> foldr (insert_sorted include_less) [] l = sort_by key_compare l.
Proof.
  induction 1 as [|x l Hx Hl IH]; [done|]. cbn [foldr]. rewrite IH. change (sort_by key_compare (x :: l)) with (insert_by key_compare x (sort_by key_compare l)).
  generalize (sort_by key_compare l). intros m. induction m as [|y m IHm]; [done|]. cbn [insert_sorted insert_by].
  rewrite include_less_key by done. destruct (key_compare y x); [done| |done]. by rewrite IHm.
Qed.

Lemma std_sort_balanced l : Forall balanced l -> std_sort include_less l = Ok (sort_by key_compare l).
Proof.
  intros Hl. unfold std_sort. rewrite foldr_sort by done.
  assert (weak_order_on include_less l = true) as ->; [|done].
  rewrite Forall_forall in Hl. unfold weak_order_on. apply andb_true_iff. split.
  - apply forallb_forall. intros x Hx. apply elem_of_list_In in Hx. rewrite include_less_key by auto. by rewrite (cmp_refl key_total).
  - apply forallb_forall. intros x Hx. apply forallb_forall. intros y Hy. apply forallb_forall. intros z Hz.
    apply elem_of_list_In in Hx, Hy, Hz. rewrite !include_less_key by auto.
    destruct (key_compare x y) eqn:E1.
    + apply (cmp_eq key_total) in E1 as <-. rewrite (cmp_refl key_total). by destruct (key_compare x z), (key_compare z x).
    + destruct (key_compare y z) eqn:E2; [|by rewrite (cmp_trans key_total _ _ _ E1 E2)|done].
      apply (cmp_eq key_total) in E2 as <-. by rewrite E1.
    + apply (cmp_gt key_total) in E1. rewrite E1. cbn. by destruct (key_compare x z).
Qed.

Lemma sorted_impl {A} (P Q : A -> A -> Prop) l : (forall x y, P x y -> Q x y) -> StronglySorted P l -> StronglySorted Q l.
Proof. intros H. induction 1 as [|x l Hl IH Hx]; constructor; [done|]. eapply Forall_impl; [exact Hx|]. auto. Qed.

Lemma key_sorted l : StronglySorted comes_before (sort_by key_compare l).
Proof.
  eapply sorted_impl; [|apply (sort_by_sorted key_total)]. intros v w H. unfold le_by in H.
  unfold comes_before. rewrite <- !has_true. fold (angled v) (angled w). unfold key_compare, pair_compare in H. cbn [fst snd] in H.
  destruct (angled v), (angled w); cbn in H; [| done |by left|].
  - right. split; [done|]. destruct (text_compare v w) eqn:E; [left; by apply (cmp_eq text_total)|by right|]. by apply (cmp_gt text_total) in E.
  - right. split; [done|]. destruct (text_compare v w) eqn:E; [left; by apply (cmp_eq text_total)|by right|]. by apply (cmp_gt text_total) in E.
Qed.

Lemma add_include_spec l pre cs fin path : parts l pre cs fin -> Forall (fun c => balanced (fst c)) cs -> balanced path ->
  exists sorted, add_include l path = Ok (pre ++ concat sorted ++ tail_of cs fin) /\
    sorted ≡ₚ new_line path :: map (fun c => fst c ++ [nl]) cs /\ StronglySorted comes_before sorted.
Proof.
  intros Hp Hb Hpath. rewrite (add_include_parts l pre cs fin path Hp). rewrite std_sort_balanced.
  - cbn [rbind]. eexists. split; [done|]. split; [apply sort_by_perm|apply key_sorted].
  - constructor.
    + unfold balanced, new_line in *. unfold directive. cbn [list_ascii_of_string].
      rewrite !elem_of_app, !elem_of_cons, !elem_of_nil, Hpath. naive_solver.
    + apply Forall_map. eapply Forall_impl; [exact Hb|]. intros [w g]. cbn [fst]. unfold balanced. intros H.
      rewrite !elem_of_app, H, !elem_of_cons, !elem_of_nil. naive_solver.
Qed.

(** ** Consequences *)

Lemma add_include_outcome l path : add_include l path = UB \/ exists t, add_include l path = Ok t.
Proof.
  destruct (parts_exist l) as (pre&cs&fin&H). rewrite (add_include_parts l pre cs fin path H). unfold std_sort.
  destruct (weak_order_on _ _); cbn [rbind]; [right; by eexists|by left].
Qed.

(** The directives stand together. *)
Lemma add_include_block l pre ws post path : l = pre ++ concat (map (fun w => w ++ [nl]) ws) ++ post ->
  ~ occurs directive pre -> ~ occurs directive post -> (ws = [] -> post = []) -> Forall directive_line ws -> Forall balanced ws -> balanced path ->
  exists sorted, add_include l path = Ok (pre ++ concat sorted ++ post) /\
    sorted ≡ₚ new_line path :: map (fun w => w ++ [nl]) ws /\ StronglySorted comes_before sorted.
Proof.
  intros Hl Hpre Hpost Hempty Hd Hb Hpath. assert (ws = [] \/ ws <> []) as [->|E] by (destruct ws; [by left|by right]).
  { rewrite Hempty in * by done. cbn [map concat app] in Hl.
    destruct (add_include_spec l pre [] [] path) as (s&H1&H2&H3); [|constructor|done|].
    - split; [exact Hl|done|constructor|by left].
    - exists s. by split. }
  destruct (exists_last E) as (ws0&v&->). clear E Hempty.
  set (cs := map (fun w => (w, [])) ws0 ++ [(v, post)]).
  assert (with_gaps cs = concat (map (fun w => w ++ [nl]) (ws0 ++ [v])) ++ post) as Hg.
  { unfold cs. rewrite with_gaps_app, with_gaps_cons, map_app, concat_app. change (with_gaps []) with (@nil ascii). cbn [map concat].
    rewrite !app_nil_r, <- !app_assoc. cbn [app]. f_equal. clear. induction ws0 as [|w ws IH]; [done|].
    cbn [map concat]. rewrite with_gaps_cons, IH, <- app_assoc. done. }
  apply Forall_app in Hd as [Hd1 Hd2]. apply Forall_app in Hb as [Hb1 Hb2]. apply (proj1 (Forall_singleton _ _)) in Hd2, Hb2.
  destruct (add_include_spec l pre cs [] path) as (s&H1&H2&H3).
  - split; [rewrite Hl, Hg, <- !app_assoc, app_nil_r; done|done| |by left]. unfold cs. apply Forall_app. split.
    + apply Forall_map. eapply Forall_impl; [exact Hd1|]. cbn [fst snd]. intros w Hw. split; [done|].
      intros [i Hi]. apply occurs_at_len in Hi. change (List.length directive) with 8 in Hi. cbn in Hi. lia.
    + apply Forall_singleton. exact (conj Hd2 Hpost).
  - unfold cs. apply Forall_app. split; [by apply Forall_map|by apply Forall_singleton].
  - done.
  - exists s. split; [|split; [|done]].
    + rewrite H1. unfold tail_of, cs. by rewrite last_snoc.
    + rewrite H2. unfold cs. rewrite !map_app, map_map. done.
Qed.
