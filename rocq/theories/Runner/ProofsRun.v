(** Lemmas for C52: a whole run. *)
From stdpp Require Import list list_numbers.
From Verif.Base Require Import Outcome ListLemmas.
From Verif.Graph Require Import Model ModelWeighted ModelTree ModelTraverse Spec SpecWeighted SpecTree SpecTraverse SpecSpan
  ProofsTraverseEdges ProofsTraverseDfs ProofsTree ProofsPrune ProofsSpan.
From Verif.Runner Require Import Model Spec Proofs.

Lemma sub_at t n : n ∈ nodes_of t -> exists u, sub_tree u t /\ root u = n.
Proof.
  induction t as [m bs IH] using tree_branch_ind. cbn. intros Hn. apply elem_of_cons in Hn as [-> | Hn].
  { exists (Node m bs). split; [constructor|done]. }
  apply elem_of_concat_map in Hn as (b & Hb & Hn). destruct (IH b Hb Hn) as (u & Hu & Hr). exists u. split; [|done]. by eapply sub_branch.
Qed.

Lemma spans_sub {W} (g : graph W) u t : sub_tree u t -> spans g t -> spans g u.
Proof.
  induction 1 as [|n bs b Hb _ IH]; intros HT; [done|]. inversion HT as [? ? _ Hbs]; subst. rewrite Forall_forall in Hbs.
  by apply IH, (Hbs b Hb).
Qed.

(** The nodes of a subtree are those below its root. *)
Lemma below_sub {W} (g : graph W) ps u : tree_rep Forward g ps -> spans g u -> (forall n, n ∈ nodes_of u -> n < length ps) ->
  forall x, x ∈ nodes_of u <-> anc ps x (root u).
Proof.
  intros Hrep Hsp Hlt x. split.
  - revert x. induction u as [n bs IH] using tree_branch_ind. intros x Hx. cbn in Hx. apply elem_of_cons in Hx as [-> | Hx].
    { apply anc_refl. apply Hlt. left. }
    apply elem_of_concat_map in Hx as (b & Hb & Hx). inversion Hsp as [? ? _ Hbs]; subst. rewrite Forall_forall in Hbs.
    destruct (Hbs b Hb) as [Hlk Hspb].
    assert (Hltb : forall m, m ∈ nodes_of b.2 -> m < length ps).
    { intros m Hm. apply Hlt. cbn. right. apply elem_of_concat_map. by exists b. }
    specialize (IH b Hb Hspb Hltb x Hx). eapply anc_trans; [exact IH|].
    destruct (row g n !! b.1) as [e|] eqn:E; [|done]. injection Hlk as Hlk. rewrite <- Hlk.
    eapply anc_up; [|apply anc_refl, Hlt; left]. apply (rep_parent g ps n e Hrep). by eapply elem_of_list_lookup_2.
  - intros Ha. remember (root u) as r eqn:Er. revert Er. induction Ha as [n Hn|n p a Hp _ IH]; intros ->; [apply root_node|].
    specialize (IH eq_refl). destruct (sub_at u p IH) as ([p' bs] & Hs & Hr). cbn in Hr. subst p'.
    pose proof (spans_sub g _ _ Hs Hsp) as Hsp'. inversion Hsp' as [? ? Hf Hbs]; subst. rewrite Forall_forall in Hbs.
    destruct (rep_edge g ps p n Hrep (Hlt p IH) Hp) as (e & He & Het). apply elem_of_list_lookup in He as [k Hk].
    assert (k ∈ map fst bs) as Hkb. { rewrite Hf. apply elem_of_seq. apply lookup_lt_Some in Hk. lia. }
    apply elem_of_list_fmap in Hkb as (b & -> & Hb). destruct (Hbs b Hb) as [Hlk _]. rewrite Hk in Hlk. injection Hlk as Hlk.
    eapply nodes_of_sub; [exact Hs|]. cbn. right. apply elem_of_concat_map. exists b. split; [done|]. rewrite <- Het, Hlk. apply root_node.
Qed.

Section run.
  Context {T D : Type} (parallelizable : T -> bool) (execute : option nat -> T -> D).
  Context (add : D -> D -> D) (clear : D -> D) (timed : D -> D).
  Implicit Types l : list (step T D).
  Implicit Types g : wgraph unit (snode T D).
  Implicit Types ws : list (snode T D).

  Lemma executed_app l l' : executed (l ++ l') = executed l ++ executed l'.
  Proof. apply omap_app. Qed.
  Lemma processed_app l l' : processed (l ++ l') = processed l ++ processed l'.
  Proof. apply omap_app. Qed.
  Lemma executed_map (ts : list T) : executed (map Executed ts : list (step T D)) = ts.
  Proof. induction ts as [|t ts IH]; [done|]. cbn. f_equal. exact IH. Qed.
  Lemma processed_map (ts : list T) : processed (map Executed ts : list (step T D)) = [].
  Proof. induction ts as [|t ts IH]; [done|]. exact IH. Qed.
  Lemma executed_concat {A} (f : A -> list (step T D)) bs : executed (concat (map f bs)) = concat (map (fun b => executed (f b)) bs).
  Proof. induction bs as [|b bs IH]; [done|]. cbn [map concat]. by rewrite executed_app, IH. Qed.
  Lemma processed_concat {A} (f : A -> list (step T D)) bs : processed (concat (map f bs)) = concat (map (fun b => processed (f b)) bs).
  Proof. induction bs as [|b bs IH]; [done|]. cbn [map concat]. by rewrite processed_app, IH. Qed.

  Lemma omap_concat {A B C} (f : B -> option C) (h : A -> list B) bs :
    omap f (concat (map h bs)) = concat (map (fun b => omap f (h b)) bs).
  Proof. induction bs as [|b bs IH]; [done|]. cbn [map concat]. by rewrite omap_app, IH. Qed.

  Lemma concat_map_ext {A B} (f h : A -> list B) bs : (forall b, b ∈ bs -> f b = h b) -> concat (map f bs) = concat (map h bs).
  Proof. induction bs as [|b bs IH]; intros H; [done|]. cbn. rewrite (H b) by left. f_equal. apply IH. intros c Hc. apply H. by right. Qed.

  Lemma concat_map_perm {A B} (f h : A -> list B) bs : (forall b, b ∈ bs -> f b ≡ₚ h b) -> concat (map f bs) ≡ₚ concat (map h bs).
  Proof. induction bs as [|b bs IH]; intros H; [done|]. cbn. rewrite (H b) by left. f_equiv. apply IH. intros c Hc. apply H. by right. Qed.

  Section steps.
    Context (serial : bool) (id : option nat) (tst : nat -> option T).
    Notation tsteps := (tree_steps execute serial id tst).

    Lemma executed_tree t : executed (tsteps t) = if serial then omap tst (nodes_of t) else [].
    Proof.
      induction t as [n bs IH] using tree_branch_ind. cbn [tree_steps nodes_of]. rewrite !executed_app, executed_concat, (concat_map_ext _ _ _ IH).
      assert (executed (late_steps execute id tst n) = []) as -> by (unfold late_steps; by destruct (tst n)). rewrite app_nil_r.
      unfold early_steps. destruct serial; cbn.
      - rewrite omap_concat. by destruct (tst n).
      - clear. induction bs as [|b bs IH]; [done|exact IH].
    Qed.

    Lemma processed_tree t : processed (tsteps t) ≡ₚ map (fun t => (t, execute id t)) (omap tst (nodes_of t)).
    Proof.
      induction t as [n bs IH] using tree_branch_ind. cbn [tree_steps nodes_of]. rewrite !processed_app, processed_concat, (concat_map_perm _ _ _ IH).
      assert (processed (early_steps serial tst n) = []) as -> by (unfold early_steps; destruct serial; by destruct (tst n)). cbn [app].
      assert (Hr : concat (map (fun b : nat * tree => map (fun t => (t, execute id t)) (omap tst (nodes_of b.2))) bs)
        = map (fun t => (t, execute id t)) (omap tst (concat (map (fun b => nodes_of b.2) bs)))).
      { clear. induction bs as [|b bs IH]; [done|]. cbn [map concat]. by rewrite omap_app, map_app, IH. }
      rewrite Hr. cbn [omap list_omap]. unfold late_steps. destruct (tst n) as [t|]; cbn.
      - by rewrite <- Permutation_cons_append.
      - by rewrite app_nil_r.
    Qed.

    Lemma updated_tree t : Updated ∉ tsteps t.
    Proof.
      induction t as [n bs IH] using tree_branch_ind. cbn [tree_steps]. rewrite !elem_of_app. intros [H|[H|H]].
      - unfold early_steps in H. destruct serial; [|by apply elem_of_nil in H]. destruct (tst n); [|by apply elem_of_nil in H].
        by apply elem_of_list_singleton in H.
      - apply elem_of_concat_map in H as (b & Hb & H). by apply (IH b Hb).
      - unfold late_steps in H. destruct (tst n); [|by apply elem_of_nil in H]. by apply elem_of_list_singleton in H.
    Qed.

    (** Nothing is dealt with before it is executed. *)
    Definition prompt (ts : list T) l : Prop := forall l1 t d l2, l = l1 ++ Processed t d :: l2 -> t ∈ ts ++ executed l1.

    Lemma prompt_app ts l l' : prompt ts l -> prompt (ts ++ executed l) l' -> prompt ts (l ++ l').
    Proof.
      intros H H' l1 t d l2 E. apply app_eq_inv in E as [(k & -> & E)|(k & -> & E)].
      - destruct k as [|x k].
        + cbn in E. subst l'. specialize (H' [] t d l2 eq_refl). rewrite (app_nil_r l1) in H'. change (executed []) with (@nil T) in H'.
          by rewrite app_nil_r in H'.
        + cbn in E. injection E as <- ->. by apply (H l1 t d k).
      - subst l'. rewrite executed_app, app_assoc. by apply (H' k t d l2).
    Qed.

    Lemma prompt_weaken ts ts' l : (forall t, t ∈ ts -> t ∈ ts') -> prompt ts l -> prompt ts' l.
    Proof. intros H Hp l1 t d l2 E. specialize (Hp l1 t d l2 E). rewrite elem_of_app in *. naive_solver. Qed.

    Lemma prompt_concat {A} (f : A -> list (step T D)) ts bs : (forall b, b ∈ bs -> prompt ts (f b)) -> prompt ts (concat (map f bs)).
    Proof.
      revert ts. induction bs as [|b bs IH]; intros ts H; cbn.
      - intros l1 t d l2 E. by destruct l1.
      - apply prompt_app; [apply H; left|]. apply IH. intros c Hc. eapply prompt_weaken; [|apply H; by right].
        intros t Ht. apply elem_of_app. by left.
    Qed.

    Lemma prompt_tree ts t : (serial = false -> forall n x, n ∈ nodes_of t -> tst n = Some x -> x ∈ ts) -> prompt ts (tsteps t).
    Proof.
      revert ts. induction t as [n bs IH] using tree_branch_ind. intros ts H. cbn [tree_steps]. apply prompt_app.
      { intros l1 t d l2 E. unfold early_steps in E. destruct serial; [|by destruct l1]. destruct (tst n); [|by destruct l1].
        destruct l1 as [|? [|]]; discriminate. }
      apply prompt_app.
      { apply prompt_concat. intros b Hb. apply IH; [done|]. intros Hs m x Hm Hx. apply elem_of_app. left. apply (H Hs m x); [|done].
        cbn. right. apply elem_of_concat_map. by exists b. }
      intros l1 t d l2 E. unfold late_steps in E. destruct (tst n) as [x|] eqn:Ex; [|by destruct l1].
      destruct l1 as [|? [|]]; [|discriminate|discriminate]. injection E as <- <- <-. unfold early_steps. rewrite Ex.
      destruct serial.
      - rewrite !elem_of_app. left. left. right. left.
      - rewrite !elem_of_app. left. left. left. apply (H eq_refl n x); [left|done].
    Qed.
  End steps.

  (** *** Sums *)
  Section sums.
    Context {M : Type} (op : M -> M -> M) (e : M) (mu : D -> M).
    Hypothesis Hassoc : forall a b c, op a (op b c) = op (op a b) c.
    Hypothesis Hcomm : forall a b, op a b = op b a.
    Hypothesis Hunit : forall a, op e a = a.
    Hypothesis Hadd : forall a b, mu (add a b) = op (mu a) (mu b).

    Lemma total_app (l l' : list M) : total op e (l ++ l') = op (total op e l) (total op e l').
    Proof. induction l as [|a l IH]; cbn; [by rewrite Hunit|]. unfold total in IH. by rewrite IH, Hassoc. Qed.

    Lemma total_perm (l l' : list M) : l ≡ₚ l' -> total op e l = total op e l'.
    Proof.
      induction 1 as [|x l l' _ IH|x y l|l l' l'' _ IH _ IH']; [done| | |congruence].
      - cbn. unfold total in IH. by rewrite IH.
      - cbn. by rewrite !Hassoc, (Hcomm x y).
    Qed.

    Lemma mu_foldl d ds : mu (foldl add d ds) = op (mu d) (total op e (map mu ds)).
    Proof.
      revert d. induction ds as [|x ds IH]; intros d; cbn; [by rewrite Hcomm, Hunit|]. rewrite IH, Hadd. by rewrite <- Hassoc.
    Qed.

    Lemma mu_dsum id (tst : nat -> option T) base t : (forall n, n ∈ nodes_of t -> tst n = None -> mu (base n) = e) ->
      mu (dsum execute add id tst base t) = total op e (map (fun t => mu (execute id t)) (omap tst (nodes_of t))).
    Proof.
      induction t as [n bs IH] using tree_branch_ind. intros Hb. cbn [dsum nodes_of]. rewrite mu_foldl.
      assert (Hr : total op e (map mu (map (fun b : nat * tree => dsum execute add id tst base b.2) bs))
        = total op e (map (fun t => mu (execute id t)) (omap tst (concat (map (fun b => nodes_of b.2) bs))))).
      { assert (Hbs : forall b m, b ∈ bs -> m ∈ nodes_of b.2 -> tst m = None -> mu (base m) = e).
        { intros b m Hin Hm Ht. apply Hb; [|done]. cbn. right. apply elem_of_concat_map. by exists b. }
        clear Hb. induction bs as [|b bs IHbs]; [done|]. cbn [map concat].
        rewrite omap_app, map_app, total_app, <- IHbs.
        - cbn. f_equal. apply IH; [left|]. intros m Hm. apply (Hbs b m); [left|done].
        - intros c Hc. apply IH. by right.
        - intros c m Hc. apply Hbs. by right. }
      rewrite Hr. unfold own. cbn [omap list_omap]. destruct (tst n) as [t|] eqn:Et; cbn; [done|].
      rewrite (Hb n ltac:(left) Et). apply Hunit.
    Qed.
  End sums.

  (** *** A run *)

  Definition last_timed (mode : option (list nat -> list nat)) (n : nat) (d : D) : D :=
    match mode with Some _ => if decide (n = 0) then timed d else d | None => d end.

  Definition summary_at (d0 : D) ws (n : nat) : D := default d0 (summary <$> ws !! n).

  Lemma tests_of_nodes ws (ns : list nat) : NoDup ns -> (forall n, n ∈ ns <-> n < length ws) ->
    omap (test_at ws) ns ≡ₚ tests_of ws.
  Proof.
    intros Hnd Hns. assert (Hp : ns ≡ₚ seq 0 (length ws)).
    { apply NoDup_Permutation; [done|apply NoDup_seq|]. intros n. rewrite Hns, elem_of_seq. lia. }
    rewrite Hp. pose proof (omap_seq_lookup opt_test ws [] []) as H. rewrite app_nil_r in H. cbn [app length] in H.
    unfold test_at, tests_of. by rewrite <- H.
  Qed.

  Lemma run_tests_all (mode : option (list nat -> list nat)) (id : option nat) g ps : suite_tree g ps ->
    (forall sched, mode = Some sched -> tests_sorted parallelizable (weights g) /\ forall ns : list nat, sched ns ≡ₚ ns) ->
    exists d0 g' l t, run_tests parallelizable execute add timed mode id g = Ok (g', l)
      /\ edges g' = edges g /\ length (weights g') = length (weights g)
      /\ good_run execute id (tests_of (weights g)) l /\ (mode <> None -> phases parallelizable l)
      /\ spans (edges g) t /\ root t = 0 /\ NoDup (nodes_of t) /\ (forall n, n ∈ nodes_of t <-> n < length ps)
      /\ forall u, sub_tree u t -> weights g' !! root u =
           Some (SNode (last_timed mode (root u) (dsum execute add id (test_at (weights g)) (summary_at d0 (weights g)) u))
                       (test_at (weights g) (root u))).
  Proof.
    intros [[Hin Hlen] Hrep Hroot Hall Hsuite Hleaf] Hmode. cbn in Hin.
    destruct (dfs_tree_all true (edges g) ps 0 Hin Hrep Hroot Hall) as (t & Hdfs & Hrt & Hsp & Hnd & Hns).
    pose proof (proj1 Hrep) as Hl. assert (Hlw : length (weights g) = length ps) by (unfold order in Hlen; lia).
    destruct (lookup_in_range (weights g) 0) as [w0 Hw0]; [apply lookup_lt_Some in Hroot; lia|].
    set (d0 := summary w0). set (tst := test_at (weights g)). set (base := summary_at d0 (weights g)).
    (* the state before the traversal *)
    assert (Hpre : exists s ts1 ts2 base', (match mode with Some sched => concurrent_phase parallelizable execute sched id (RState (weights g) 0 [])
          | None => Ok (RState (weights g) 0 []) end) = Ok s
        /\ depth s = 0 /\ steps s = map Executed ts1 ++ map Executed ts2 /\ length (nodes s) = length (weights g)
        /\ (mode = None -> ts1 = [] /\ ts2 = []) /\ (mode <> None -> ts1 ++ ts2 ≡ₚ tests_of (weights g))
        /\ Forall (fun t => parallelizable t = false) ts1 /\ Forall (fun t => parallelizable t = true) ts2
        /\ (forall n, n < length ps -> nodes s !! n = Some (SNode (base' n) (tst n)))
        /\ (mode <> None -> forall n t, tst n = Some t -> n < length ps -> base' n = execute id t)
        /\ (forall n, tst n = None -> base' n = base n)).
    { assert (Hnode : forall n, n < length ps -> weights g !! n = Some (SNode (base n) (tst n))).
      { intros n Hn. destruct (lookup_in_range (weights g) n ltac:(lia)) as [[d o] Hw]. unfold base, summary_at, tst, test_at.
        rewrite Hw. done. }
      destruct mode as [sched|].
      - destruct (Hmode sched eq_refl) as [Hsorted Hsched].
        destruct (concurrent_phase_ok parallelizable execute add sched id (RState (weights g) 0 []) Hsorted Hsched)
          as (ws & t1 & t2 & Heq & Hperm & Ht1 & Ht2 & Hlws & Hws). cbn [nodes steps depth] in *.
        exists (RState ws 0 (map Executed t1 ++ map Executed t2)), t1, t2, (fun n => default (base n) (execute id <$> tst n)).
        rewrite Heq. do 4 (split; [done|]). split; [done|]. split; [done|]. do 2 (split; [done|]). split.
        + intros n Hn. cbn [nodes]. rewrite Hws, (Hnode n Hn). done.
        + split.
          * intros _ n x Hx _. by rewrite Hx.
          * intros n Hx. by rewrite Hx.
      - exists (RState (weights g) 0 []), [], [], base. do 4 (split; [done|]). split; [done|]. split; [done|].
        do 2 (split; [constructor|]). split; [done|]. done. }
    destruct Hpre as (s & ts1 & ts2 & base' & Hs & Hd & Hst & Hln & Hmn & Hms & Ht1 & Ht2 & Hnode & Hbase' & Hbeq).
    unfold run_tests. rewrite Hs. cbn [rbind]. rewrite Hdfs. cbn [rbind].
    set (serial := match mode with None => true | _ => false end).
    destruct (trav_tree execute add serial id (edges g) tst base') with (t := t) (s := s) (rest := @nil event) as (ws & Htrav & Hout & Hsub).
    { exact Hleaf. }
    { intros Hser n x Hx. apply Hbase'; [by destruct mode|done|].
      unfold tst, test_at in Hx. destruct (weights g !! n) eqn:E; [|done]. apply lookup_lt_Some in E. lia. }
    { done. } { done. }
    { intros n Hn. apply Hns in Hn. split; [by apply Hnode|]. lia. }
    rewrite app_nil_r in Htrav. cbn [traversal] in Htrav.
    assert (Hdsum : forall u, (forall n, n ∈ nodes_of u -> n < length ps) ->
       dsum execute add id tst base' u = dsum execute add id tst base u).
    { induction u as [n bs IH] using tree_branch_ind. intros Hlt. cbn [dsum]. f_equal.
      - unfold own. destruct (tst n) eqn:E; [done|]. by apply Hbeq.
      - apply map_ext_in. intros b Hb%elem_of_list_In. apply IH; [done|]. intros m Hm. apply Hlt. cbn. right.
        apply elem_of_concat_map. by exists b. }
    assert (Hlws : length ws = length (weights g)).
    { assert (Hb : forall n, is_Some (ws !! n) <-> n < length (weights g)).
      { intros n. destruct (decide (n ∈ nodes_of t)) as [Hn|Hn].
        - destruct (sub_at t n Hn) as (u & Hu & <-). rewrite (Hsub u Hu). apply Hns in Hn. split; [lia|by eexists].
        - rewrite (Hout n Hn). rewrite Hns in Hn. rewrite lookup_lt_is_Some, Hln. lia. }
      pose proof (Hb (length ws)) as H1. pose proof (Hb (length (weights g))) as H2. rewrite lookup_lt_is_Some in H1, H2. lia. }
    exists d0, (WGraph (edges g) (match mode with Some _ => <[0 := SNode (timed (dsum execute add id tst base' t)) (tst 0)]> ws | None => ws end)),
      (steps s ++ tree_steps execute serial id tst t ++ [Updated]), t.
    pose proof (Hsub t (sub_here t)) as Hr0. rewrite Hrt in Hr0.
    split.
    { unfold serial in *. rewrite Htrav. cbn [rbind nodes steps]. unfold rget. rewrite Hr0. cbn [rbind summary opt_test]. rewrite Hd. cbn.
      by destruct mode. }
    split; [done|]. split; [cbn; destruct mode; [by rewrite insert_length|done]|].
    assert (Hto : omap tst (nodes_of t) ≡ₚ tests_of (weights g)).
    { apply tests_of_nodes; [done|]. intros n. rewrite Hns. lia. }
    split.
    { split; [|split; [|split]].
      - rewrite !executed_app, Hst, executed_app, !executed_map, executed_tree. cbn. rewrite app_nil_r. unfold serial.
        destruct mode as [sched|]; [rewrite app_nil_r; by apply Hms|]. by destruct (Hmn eq_refl) as [-> ->].
      - rewrite !processed_app, Hst, processed_app, !processed_map, processed_tree. cbn. rewrite app_nil_r. by rewrite Hto.
      - exists (steps s ++ tree_steps execute serial id tst t). split; [by rewrite app_assoc|]. rewrite Hst, !elem_of_app.
        intros [[H|H]|H]; [apply elem_of_list_fmap in H as (? & ? & _); done| |by eapply updated_tree].
        apply elem_of_list_fmap in H as (? & ? & _); done.
      - assert (Hp : prompt [] (steps s ++ tree_steps execute serial id tst t ++ [Updated])).
        { apply prompt_app.
          - rewrite Hst, <- map_app. intros l1 x d l2 E.
            assert (Hin' : Processed x d ∈ (map Executed (ts1 ++ ts2) : list (step T D))) by (rewrite E; apply elem_of_app; right; left).
            apply elem_of_list_fmap in Hin' as (? & ? & _). done.
          - apply prompt_app.
            + apply prompt_tree. intros Hser n x Hn Hx. cbn [app]. rewrite Hst, executed_app, !executed_map.
              rewrite Hms by by destruct mode. rewrite <- Hto. apply elem_of_list_omap. by exists n.
            + intros l1 x d l2 E. destruct l1 as [|? [|]]; discriminate. }
        intros l1 x d l2 E. exact (Hp l1 x d l2 E). }
    split.
    { intros Hm. exists ts1, ts2, (tree_steps execute serial id tst t ++ [Updated]). rewrite Hst, <- app_assoc. split; [done|].
      split; [|done]. rewrite executed_app, executed_tree. unfold serial. by destruct mode. }
    split; [done|]. split; [done|]. split; [done|]. split; [done|].
    intros u Hu. pose proof (Hsub u Hu) as Hru. rewrite Hdsum in Hru.
    2: { intros n Hn. apply Hns. by eapply nodes_of_sub. }
    cbn [weights]. destruct mode as [sched|]; [|done]. cbn [last_timed]. case_decide as E.
    - rewrite E in *. rewrite list_lookup_insert by (rewrite Hlws; by eapply lookup_lt_Some). do 2 f_equal. f_equal.
      rewrite <- Hdsum by (intros n Hn; apply Hns; by eapply nodes_of_sub).
      destruct t as [r bs]. cbn in Hrt. subst r. destruct u as [r bs']. cbn in E. subst r.
      by rewrite (sub_unique _ 0 bs bs' Hnd (sub_here _) Hu).
    - by rewrite list_lookup_insert_ne by done.
  Qed.
End run.
