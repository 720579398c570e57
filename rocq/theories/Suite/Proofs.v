From Coq Require Import Ascii.
From stdpp Require Import list list_numbers.
From Verif.Base Require Import Outcome ListLemmas.
From Verif.Text Require Import Model.
From Verif.Graph Require Import Model ModelWeighted Spec SpecWeighted ModelTree SpecTree ProofsBase ProofsCount ProofsTop ProofsPrune ProofsGrow ProofsForest.
From Verif.Suite Require Import Model Spec.
Local Open Scope res_scope.

Lemma suite_ind' {I} (P : suite I -> Prop) :
  (forall n items, P (SItems n items)) -> (forall n subs, Forall P subs -> P (SSuites n subs)) -> forall s, P s.
Proof.
  intros H1 H2. fix IH 1. intros [n items|n subs]; [apply H1|]. apply H2. induction subs as [|s subs IHs]; constructor; [apply IH|exact IHs].
Qed.

(** *** Graphs: a last node without edges is taken away as if it had not been put in *)
Section last_node.
  Context {W V : Type} `{!EqDecision W} (w : W).
  Implicit Types g : wgraph W V.
  Notation good := (good (W := W) (V := V) Directed Forward).

  Lemma rows_eq (es es' : graph W) : length es = length es' -> (forall i, i < length es -> row es i = row es' i) -> es = es'.
  Proof.
    intros Hl H. apply list_eq. intros i. destruct (decide (i < length es)) as [Hi|Hi].
    - destruct (lookup_lt_is_Some_2 es i Hi) as [r Hr]. destruct (lookup_lt_is_Some_2 es' i ltac:(lia)) as [r' Hr'].
      specialize (H i Hi). rewrite (row_lookup _ _ _ Hr), (row_lookup _ _ _ Hr') in H. by rewrite Hr, Hr', H.
    - rewrite !lookup_ge_None_2 by lia. done.
  Qed.

  Lemma good_targets g ps n : good g ps -> n < length ps -> exists ts, targets n g = Ok ts /\ ts ≡ₚ children_of ps n.
  Proof.
    intros Hg Hn. destruct (gd_rep _ _ _ _ Hg) as [Hl Hr]. unfold targets, order. destruct (Nat.ltb_spec n (length (edges g))); [|lia].
    destruct (lookup_lt_is_Some_2 (edges g) n ltac:(done)) as [r Hrow]. unfold rget. rewrite Hrow. cbn [rbind]. eexists. split; [done|].
    specialize (Hr n Hn). cbn beta iota in Hr. by rewrite (row_lookup _ _ _ Hrow) in Hr.
  Qed.

  Lemma last_childless ps par : ordered (ps ++ [par]) -> children_of (ps ++ [par]) (length ps) = [].
  Proof.
    intros Ho. destruct (children_of (ps ++ [par]) (length ps)) as [|c l] eqn:E; [done|]. exfalso.
    assert (Hc : (ps ++ [par]) !! c = Some (Some (length ps))) by (apply children_elem; rewrite E; left).
    pose proof (Ho _ _ Hc). apply lookup_lt_Some in Hc. rewrite app_length in Hc. cbn in Hc. lia.
  Qed.

  Lemma good_range g ps i e : good g ps -> e ∈ row (edges g) i -> tgt e < length ps.
  Proof.
    intros Hg He. destruct (gd_consistent _ _ _ _ Hg) as [Hok _]. destruct (gd_rep _ _ _ _ Hg) as [Hl _]. rewrite <- Hl.
    by eapply (graph_ok_in_range Directed).
  Qed.

  Lemma clear_back g g1 ps par v :
    good g ps -> good g1 (ps ++ [par]) -> weights g1 = weights g ++ [v] ->
    (forall i, i < length ps -> filter (fun e => tgt e <> length ps) (row (edges g1) i) = row (edges g) i) ->
    tree_clear Directed Forward (length ps) g1 = Ok (Done g).
  Proof.
    intros Hg Hg1 Hw Hrow. destruct (good_targets g1 _ (length ps) Hg1) as (ts & Hts & Hp); [rewrite app_length; cbn; lia|].
    rewrite last_childless in Hp by apply (gd_ordered _ _ _ _ Hg1). apply Permutation_nil_r in Hp. subst ts.
    unfold tree_clear. rewrite Hts. unfold prune, prune_down. fold (prune_down (W := W) (V := V)).
    destruct (gd_consistent _ _ _ _ Hg1) as [Hok1 Hw1]. destruct (gd_consistent _ _ _ _ Hg) as [Hok0 Hw0].
    destruct (gd_rep _ _ _ _ Hg1) as [Hl1 _]. destruct (gd_rep _ _ _ _ Hg) as [Hl0 _]. rewrite app_length in Hl1. cbn in Hl1.
    unfold order. rewrite Hl1. rewrite Nat.add_1_r. cbn [prune_edges]. rewrite Hts. cbn [length Nat.ltb Nat.leb obind].
    destruct (erase_node_all W _ Directed (edges g1) (length ps)) as (es & He & [Hle Hre] & Hoke); [done|unfold order; lia|].
    unfold erase_node_w. rewrite He.
    assert (es = edges g) as ->.
    { apply rows_eq; [lia|]. intros i Hi. rewrite Hre by done. unfold up. rewrite decide_False by lia. rewrite Hrow by lia.
      rewrite <- (map_id (row (edges g) i)) at 2. apply map_ext_in. intros e Hin%elem_of_list_In.
      pose proof (good_range g ps i e Hg Hin). unfold down. rewrite decide_False by lia. cbn. by destruct e. }
    assert (Hlw : length (weights g) = length ps) by (rewrite Hw0; unfold order; lia).
    unfold weights_erase. rewrite Hw, app_length, Hlw. cbn [length].
    destruct (Nat.eqb_spec (length ps) (length ps + 1)); [lia|]. destruct (Nat.ltb_spec (length ps) (length ps + 1)); [|lia].
    rewrite take_app_alt by lia. rewrite drop_ge by (rewrite app_length; cbn; lia). rewrite app_nil_r. by destruct g.
  Qed.

  Lemma add_last g ps p v :
    good g ps -> ps = [] \/ p < length ps ->
    exists g1, add_node_to_tree Directed Forward w p v g = (length ps, Ok (Done g1)) /\ good g1 (ps ++ [requested ps p])
      /\ weights g1 = weights g ++ [v] /\ tree_clear Directed Forward (length ps) g1 = Ok (Done g).
  Proof.
    intros Hg Hp. destruct (gd_consistent _ _ _ _ Hg) as [Hok0 Hw0]. destruct (gd_rep _ _ _ _ Hg) as [Hl0 _].
    assert (HN : order (edges g) = length ps) by done.
    destruct (decide (ps = [])) as [->|Hne].
    - destruct (add_root Directed Forward (or_intror eq_refl) g [] v Hg) as (g1 & H1 & Hg1 & Hw1). exists g1.
      assert (Hl1 : length (edges g1) = 1) by apply (gd_rep _ _ _ _ Hg1).
      split; [|split; [done|split; [done|]]].
      + unfold add_node_to_tree, insert_node_to_tree. unfold add_node_w in H1. rewrite H1, HN. cbn [obind]. unfold order at 1. by rewrite Hl1.
      + apply (clear_back g g1 [] None v); try done. intros i Hi. cbn in Hi. lia.
    - destruct Hp as [->|Hp]; [done|]. assert (Hreq : requested ps p = Some p) by (by destruct ps). rewrite Hreq.
      destruct (add_child Directed Forward w ltac:(by right) g ps p v Hg Hp) as (g1 & H1 & Hg1 & Hw1). exists g1.
      split; [done|]. split; [done|]. split; [done|]. apply (clear_back g g1 ps (Some p) v); try done.
      unfold add_node_to_tree, insert_node_to_tree in H1. apply (f_equal snd) in H1. cbn [snd] in H1. unfold insert_node_w in H1. rewrite HN, Nat.min_id in H1. cbn [obind] in H1.
      destruct (insert_node_all W _ Directed (edges g) (length ps) Hok0) as [Hi Hok1]. rewrite HN, Nat.min_id in Hi. destruct Hi as (Hli & Hrn & Hro).
      set (h1 := insert_node (length ps) (edges g)) in *. cbn [edges] in H1. unfold order in H1. rewrite Hli in H1.
      destruct (Nat.ltb_spec 1 (S (length (edges g)))) as [_|Hc]; [|exfalso; destruct ps; [done|cbn in Hl0; lia]].
      unfold join_w, edges_w, join in H1. cbn [edges weights] in H1. rewrite check_node_ok in H1 by lia. cbn [rbind] in H1.
      rewrite check_node_ok in H1 by lia. cbn [rbind] in H1. unfold add_to_partition, push, rget in H1.
      destruct (lookup_lt_is_Some_2 h1 p ltac:(lia)) as [r Hr]. rewrite Hr in H1. cbn [rbind] in H1. injection H1 as H1. subst g1. cbn [edges].
      intros i Hi. rewrite row_insert by lia.
      assert (Hrow : row h1 i = row (edges g) i).
      { specialize (Hro i ltac:(lia)). unfold up in Hro at 1. rewrite decide_False in Hro by lia. rewrite Hro.
        rewrite <- (map_id (row (edges g) i)) at 2. apply map_ext_in. intros e Hin%elem_of_list_In.
        pose proof (good_range g ps i e Hg Hin). unfold up. rewrite decide_False by lia. by destruct e. }
      assert (Hf : filter (fun e => tgt e <> length ps) (row (edges g) i) = row (edges g) i).
      { assert (Hall : Forall (fun e => tgt e <> length ps) (row (edges g) i)).
        { apply Forall_forall. intros e He. pose proof (good_range g ps i e Hg He). lia. }
        clear -Hall. induction Hall as [|e l He _ IH]; [done|]. by rewrite filter_cons_True, IH. }
      destruct (decide (i = p)) as [->|Hip]; [|by rewrite Hrow].
      rewrite filter_app. rewrite (row_lookup _ _ _ Hr) in Hrow. rewrite Hrow, Hf. rewrite filter_cons_False by (cbn; lia). by rewrite app_nil_r.
  Qed.
End last_node.

(** *** Extraction *)
Section extract.
  Context {I F W V : Type} `{!EqDecision W} (w : W).
  Context (flt : F -> I -> list text -> bool * F) (want : I -> list text -> bool) (Inv : F -> Prop).
  Context (Hflt : forall f i ns, Inv f -> (flt f i ns).1 = want i ns /\ Inv (flt f i ns).2).
  Context (ts : suite I -> V) (ti : I -> V).
  Implicit Types g : wgraph W V.
  Notation good := (good (W := W) (V := V) Directed Forward).

  (** The state of the filter after being called for some items. *)
  Definition asked (l : list (I * list text)) (f : F) : F := foldl (fun f (x : I * list text) => (flt f x.1 x.2).2) f l.

  Lemma asked_app l l' f : asked (l ++ l') f = asked l' (asked l f).
  Proof. apply foldl_app. Qed.

  Lemma asked_inv l : forall f, Inv f -> Inv (asked l f).
  Proof. induction l as [|x l IH]; intros f Hf; [done|]. cbn. apply IH. by apply Hflt. Qed.

  Lemma leaves_items_ok {T} (t : I -> T) ns items : forall f c, Inv f ->
    leaves_items flt t ns items f c = (asked (map (fun i => (i, ns)) items) f, c ++ map t (List.filter (fun i => want i ns) items)).
  Proof.
    induction items as [|i items IH]; intros f c Hf; [by rewrite app_nil_r|]. cbn.
    destruct (Hflt f i ns Hf) as [Hb Hi]. destruct (flt f i ns) as [b f1]. cbn in *. subst b. rewrite IH by done.
    destruct (want i ns); cbn; [by rewrite <- app_assoc|done].
  Qed.

  Definition wanted_items (l : list (I * list text)) : list I := map fst (List.filter (fun x => want x.1 x.2) l).

  Lemma wanted_items_app l l' : wanted_items (l ++ l') = wanted_items l ++ wanted_items l'.
  Proof. unfold wanted_items. by rewrite List.filter_app, map_app. Qed.

  Lemma wanted_items_same ns items : wanted_items (map (fun i => (i, ns)) items) = List.filter (fun i => want i ns) items.
  Proof. induction items as [|i items IH]; [done|]. unfold wanted_items in *. cbn. destruct (want i ns); cbn; by rewrite IH. Qed.

  Lemma leaves_go_ok {T} (t : I -> T) s : forall prev f c, Inv f ->
    leaves_go flt t prev s f c = (asked (items_of prev s) f, c ++ map t (wanted_items (items_of prev s))).
  Proof.
    induction s as [n items|n subs IH] using suite_ind'; intros prev f c Hf; cbn [leaves_go items_of].
    - rewrite leaves_items_ok by done. by rewrite wanted_items_same.
    - revert f c Hf. induction IH as [|s subs Hs _ IHs]; intros f c Hf; [cbn; by rewrite app_nil_r|].
      rewrite Hs by done. rewrite IHs by by apply asked_inv. cbn [map concat]. rewrite asked_app, wanted_items_app, map_app, app_assoc. done.
  Qed.

  Lemma extract_leaves_ok {T} (t : I -> T) s f : Inv f ->
    extract_leaves flt t s f = (asked (items_of [] s) f, map t (wanted_items (items_of [] s))).
  Proof. intros Hf. unfold extract_leaves. by rewrite leaves_go_ok. Qed.

  (** The children of a node being put in, one after another. *)
  Definition put (p : nat) (t : itree V) g : res (outcome W V) :=
    match t with INode v _ =>
      let q := add_node_to_tree Directed Forward w p v g in obind q.2 (build_tree Directed Forward w q.1 t)
    end.

  Fixpoint put_all (p : nat) (l : list (itree V)) g : res (outcome W V) :=
    match l with [] => Ok (Done g) | t :: l => obind (put p t g) (put_all p l) end.

  Lemma obind_assoc (m : res (outcome W V)) f1 f2 : obind (obind m f1) f2 = obind m (fun g => obind (f1 g) f2).
  Proof. by destruct m as [[]| | |]. Qed.

  Lemma obind_ext (m : res (outcome W V)) f1 f2 : (forall g, f1 g = f2 g) -> obind m f1 = obind m f2.
  Proof. intros H. destruct m as [[]| | |]; cbn; done. Qed.

  Lemma put_all_go p : forall l g, put_all p l g = (fix go (l : list (itree V)) g : res (outcome W V) :=
              match l with
              | [] => Ok (Done g)
              | INode cv _ as child :: l =>
                  let q := add_node_to_tree Directed Forward w p cv g in
                  obind q.2 (fun g => obind (build_tree Directed Forward w q.1 child g) (go l))
              end) l g.
  Proof.
    induction l as [|[v cs] l IH]; intros g; [done|]. cbn [put_all]. unfold put. cbn zeta. rewrite obind_assoc.
    apply obind_ext. intros g1. apply obind_ext. intros g2. apply IH.
  Qed.

  Lemma put_all_app p l l' : forall g, put_all p (l ++ l') g = obind (put_all p l g) (put_all p l').
  Proof. induction l as [|t l IH]; intros g; [done|]. cbn. rewrite obind_assoc. by apply obind_ext. Qed.

  Lemma put_all_good p l : forall g ps, good g ps -> p < length ps ->
    exists g', put_all p l g = Ok (Done g') /\ good g' (ps ++ child_parents p (length ps) l).
  Proof.
    intros g ps Hg Hp. destruct (build_children Directed Forward w p l) with (g := g) (ps := ps) as (g' & H1 & H2 & _); [|done|done|].
    - apply Forall_forall. intros t _. apply all_below. by right.
    - exists g'. split; [|done]. rewrite put_all_go. exact H1.
  Qed.

  Lemma put_good p t : forall g ps, good g ps -> p < length ps ->
    exists g', put p t g = Ok (Done g') /\ good g' (ps ++ tree_parents (Some p) (length ps) t).
  Proof.
    intros g ps Hg Hp. pose proof (all_below Directed Forward w (or_intror eq_refl) t g ps p Hg Hp) as H. destruct t as [v cs].
    destruct H as (g' & H1 & H2 & _). by exists g'.
  Qed.

  Lemma tree_items_ok node ns items : forall f g ps, Inv f -> good g ps -> node < length ps ->
    tree_items flt Directed Forward w ti node ns items f g =
      (asked (map (fun i => (i, ns)) items) f, put_all node (map (fun i => INode (ti i) []) (List.filter (fun i => want i ns) items)) g).
  Proof.
    induction items as [|i items IH]; intros f g ps Hf Hg Hn; [done|]. cbn [tree_items].
    destruct (Hflt f i ns Hf) as [Hb Hi]. cbn [map asked foldl List.filter fst snd]. destruct (flt f i ns) as [b f1]. cbn [fst snd] in *. subst b.
    destruct (want i ns).
    - destruct (add_child Directed Forward w (or_intror eq_refl) g ps node (ti i) Hg Hn) as (g1 & H1 & Hg1 & _).
      rewrite H1. cbn [snd fbind]. rewrite (IH f1 g1 (ps ++ [Some node])); [|done|done|rewrite app_length; lia]. f_equal.
      cbn [map put_all]. unfold put. rewrite H1. cbn [fst snd obind]. rewrite build_tree_node.
      assert (HN : order (edges g1) = S (length ps)).
      { assert (Hl : order (edges g1) = length (ps ++ [Some node])) by apply (gd_rep _ _ _ _ Hg1). rewrite Hl, app_length. cbn. lia. }
      rewrite HN. destruct (Nat.leb_spec (S (length ps)) (length ps)); [lia|]. done.
    - cbn [fbind]. by rewrite (IH f1 g ps).
  Qed.

  (** What is to be put in for a suite. *)
  Notation tree_of := (wanted_tree want ts ti).
  Definition put_opt (p : nat) (o : option (itree V)) g : res (outcome W V) :=
    match o with None => Ok (Done g) | Some t => put p t g end.

  Lemma put_opt_good p o g ps : good g ps -> p < length ps -> exists g' ps', put_opt p o g = Ok (Done g') /\ good g' (ps ++ ps').
  Proof.
    intros Hg Hp. destruct o as [t|]; cbn.
    - destruct (put_good p t g ps Hg Hp) as (g' & H1 & H2). eauto.
    - exists g, []. by rewrite app_nil_r.
  Qed.

  Definition children_of_suite (prev : list text) (s : suite I) : list (itree V) :=
    match s with
    | SItems n items => map (fun i => INode (ti i) []) (List.filter (fun i => want i (prev ++ [n])) items)
    | SSuites n subs => omap (wanted_tree want ts ti (prev ++ [n])) subs
    end.

  Lemma wanted_tree_eq prev s :
    tree_of prev s = match children_of_suite prev s with [] => None | cs => Some (INode (ts s) cs) end.
  Proof. destruct s as [n items|n subs]; cbn [wanted_tree children_of_suite]; [by destruct (map _ _)|by destruct (omap _ _)]. Qed.

  Definition inner (prev : list text) (s : suite I) (q : nat) (f : F) g : F * res (outcome W V) :=
    match s with
    | SItems n items => tree_items flt Directed Forward w ti q (prev ++ [n]) items f g
    | SSuites n subs =>
        (fix go (l : list (suite I)) (f : F) g : F * res (outcome W V) :=
           match l with
           | [] => (f, Ok (Done g))
           | sub :: l => fbind (tree_go flt Directed Forward w ts ti (prev ++ [n]) sub q f g) (go l)
           end) subs f g
    end.

  Lemma tree_go_eq prev s p f g :
    tree_go flt Directed Forward w ts ti prev s p f g =
      let q := add_node_to_tree Directed Forward w p (ts s) g in
      fbind (f, q.2) (fun f g => fbind (inner prev s q.1 f g) (fun f g => (f, tree_clear Directed Forward q.1 g))).
  Proof. by destruct s. Qed.

  (** The number of a new node, and whether it has children. *)
  Lemma finish_suite prev s p f g ps :
    (forall f1 g1 ps1, Inv f1 -> good g1 ps1 -> length ps < length ps1 ->
       inner prev s (length ps) f1 g1 = (asked (items_of prev s) f1, put_all (length ps) (children_of_suite prev s) g1)) ->
    Inv f -> good g ps -> ps = [] \/ p < length ps ->
    tree_go flt Directed Forward w ts ti prev s p f g =
      (asked (items_of prev s) f, put_opt p (tree_of prev s) g).
  Proof.
    intros Hin Hf Hg Hp. rewrite tree_go_eq. destruct (add_last w g ps p (ts s) Hg Hp) as (g1 & H1 & Hg1 & Hw1 & Hc1).
    cbn zeta. rewrite H1. cbn [fst snd fbind].
    rewrite (Hin f g1 (ps ++ [requested ps p])); [|done|done|rewrite app_length; cbn; lia].
    destruct (put_all_good (length ps) (children_of_suite prev s) g1 _ Hg1) as (g2 & H2 & Hg2); [rewrite app_length; cbn; lia|].
    rewrite H2. cbn [fbind]. f_equal. rewrite wanted_tree_eq. destruct (children_of_suite prev s) as [|c cs] eqn:Ecs.
    - cbn [put_all] in H2. injection H2 as ->. cbn [put_opt]. exact Hc1.
    - cbn [put_opt]. unfold put. rewrite H1. cbn zeta. cbn [fst snd obind]. rewrite build_tree_node.
      assert (HN : order (edges g1) = S (length ps)).
      { assert (Hl : order (edges g1) = length (ps ++ [requested ps p])) by apply (gd_rep _ _ _ _ Hg1). rewrite Hl, app_length. cbn. lia. }
      rewrite HN. destruct (Nat.leb_spec (S (length ps)) (length ps)); [lia|]. cbn zeta. cbn [fst snd obind].
      pose proof (put_all_go (length ps) (c :: cs) g1) as Hgo. rewrite H2 in Hgo. refine (eq_trans _ Hgo). unfold tree_clear.
      destruct (good_targets g2 _ (length ps) Hg2) as (tl & Htl & Hpm); [rewrite !app_length; cbn; lia|]. rewrite Htl.
      destruct tl as [|x tl]; [|done]. exfalso. symmetry in Hpm. apply Permutation_nil_r in Hpm.
      assert (Hin2 : S (length ps) ∈ children_of ((ps ++ [requested ps p]) ++ child_parents (length ps) (length (ps ++ [requested ps p])) (c :: cs)) (length ps)).
      { apply children_elem. rewrite lookup_app_r by (rewrite app_length; cbn; lia). rewrite app_length. cbn [length].
        replace (S (length ps) - (length ps + 1)) with 0 by lia. destruct c as [cv ccs]. cbn [child_parents]. rewrite tree_parents_node. done. }
      rewrite Hpm in Hin2. by apply elem_of_nil in Hin2.
  Qed.

  Lemma tree_go_ok s : forall prev p f g ps, Inv f -> good g ps -> ps = [] \/ p < length ps ->
    tree_go flt Directed Forward w ts ti prev s p f g =
      (asked (items_of prev s) f, put_opt p (tree_of prev s) g).
  Proof.
    induction s as [n items|n subs IH] using suite_ind'; intros prev p f g ps Hf Hg Hp; apply (finish_suite _ _ _ _ _ ps); try done.
    - intros f1 g1 ps1 Hf1 Hg1 Hl. cbn [inner items_of children_of_suite]. by apply tree_items_ok with (ps := ps1).
    - clear f g Hf Hg Hp. intros f g ps1 Hf Hg Hl. cbn [inner items_of children_of_suite].
      revert f g ps1 Hf Hg Hl. induction IH as [|s subs Hs _ IHs]; intros f g ps1 Hf Hg Hl; [done|].
      rewrite (Hs _ _ _ _ ps1); [|done|done|by right]. destruct (put_opt_good (length ps) (tree_of (prev ++ [n]) s) g ps1 Hg Hl) as (g2 & ps2 & H2 & Hg2).
      rewrite H2. cbn [fbind]. rewrite (IHs _ _ (ps1 ++ ps2)); [|by apply asked_inv|done|rewrite app_length; lia].
      cbn [map concat]. rewrite asked_app. f_equal. cbn [omap list_omap]. destruct (tree_of (prev ++ [n]) s) as [t|]; cbn [put_opt] in H2.
      + cbn [put_all]. rewrite H2. done.
      + injection H2 as ->. done.
  Qed.

  Lemma put_root t p : put p t (WGraph [] []) = make_tree Directed Forward w t.
  Proof.
    destruct t as [v cs]. unfold put, make_tree. cbn [build_forest]. unfold add_node_to_tree, insert_node_to_tree. cbn zeta.
    change (order (edges (WGraph [] []))) with 0. cbn [Nat.min fst snd]. rewrite !build_tree_node. cbn [fst snd].
    change (order (edges (WGraph [] []))) with 0. cbn [Nat.leb fst snd].
    unfold add_node_w, insert_node_w. cbn. destruct ((fix go (l : list (itree V)) g := _) cs _) as [[]| | |]; done.
  Qed.

  Lemma extract_tree_ok s f : Inv f ->
    extract_tree flt Directed Forward w ts ti s f =
      (asked (items_of [] s) f, match tree_of [] s with None => Ok (Done (WGraph [] [])) | Some t => make_tree Directed Forward w t end).
  Proof.
    intros Hf. unfold extract_tree. rewrite (tree_go_ok s [] 0 f (WGraph [] []) []); [|done|apply empty_good|by left]. f_equal.
    destruct (tree_of [] s) as [t|]; [|done]. apply put_root.
  Qed.

  Lemma extract_tree_into_ok s f g ps p : Inv f -> good g ps -> p < length ps ->
    exists g', extract_tree_into flt Directed Forward w ts ti s f g p = (asked (items_of [] s) f, Ok (Done g')) /\
      match tree_of [] s with
      | None => g' = g
      | Some t => good g' (ps ++ tree_parents (Some p) (length ps) t) /\ weights g' = weights g ++ preorder t
      end.
  Proof.
    intros Hf Hg Hp. unfold extract_tree_into. rewrite (tree_go_ok s [] p f g ps); [|done|done|by right].
    destruct (tree_of [] s) as [t|]; cbn [put_opt]; [|by exists g].
    pose proof (all_below Directed Forward w (or_intror eq_refl) t g ps p Hg Hp) as H. destruct t as [v cs].
    destruct H as (g' & H1 & H2 & H3). exists g'. unfold put. by rewrite H1.
  Qed.
End extract.
