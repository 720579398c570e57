From Coq Require Import Ascii.
From stdpp Require Import list list_numbers.
From Verif.Base Require Import Outcome ListLemmas.
From Verif.Text Require Import Model.
From Verif.Graph Require Import Model ModelWeighted ModelTree ModelTraverse Spec SpecTree SpecTraverse SpecSpan ProofsPrune ProofsSpan.
From Verif.CommandLine Require Import Model Spec ProofsTree ProofsParse ProofsHelp ProofsLine.
Local Open Scope res_scope.

Section kids.
  Implicit Types l ps : list (option nat).

  Fixpoint kids (off : nat) l (n : nat) : list nat :=
    match l with
    | [] => []
    | p :: l => if decide (p = Some n) then off :: kids (S off) l n else kids (S off) l n
    end.

  Lemma kids_app off l l' n : kids off (l ++ l') n = kids off l n ++ kids (off + length l) l' n.
  Proof.
    revert off. induction l as [|p l IH]; intros off; cbn; [by rewrite Nat.add_0_r|]. rewrite IH.
    replace (S off + length l) with (off + S (length l)) by lia. by destruct (decide _).
  Qed.

  Lemma kids_none off l n : Some n ∉ l -> kids off l n = [].
  Proof.
    revert off. induction l as [|p l IH]; intros off H; cbn; [done|]. rewrite decide_False; [|intros ->; apply H; left]. apply IH. intros Hin. apply H. by right.
  Qed.

  Lemma children_kids ps n : children_of ps n = kids 0 ps n.
  Proof.
    induction ps as [|p ps IH] using rev_ind; [done|]. rewrite children_snoc, kids_app, IH. cbn. f_equal.
  Qed.
End kids.

Section invoke.
  Context {E : Type}.
  Implicit Types L : list (option nat * operation E).
  Implicit Types ts : list (otree E).

  Fixpoint bases (b : nat) ts : list nat :=
    match ts with
    | [] => []
    | t :: ts => b :: bases (b + length (flat None 0 t)) ts
    end.

  Lemma kids_flat (t : otree E) n b : n < b -> kids b (flat (Some n) b t).*1 n = [b].
  Proof.
    intros Hn. destruct t as [x ts]. pose proof (flat_parents (OTree x ts) (Some n) b) as Hp. rewrite flat_node in *. cbn in *.
    rewrite decide_True by done. f_equal. apply kids_none. intros [i Hi]%elem_of_list_lookup.
    destruct (Hp (S i) (Some n) Hi) as [[? _]|(_ & p & [= <-] & H)]; lia.
  Qed.

  Lemma kids_flats ts n b : n < b -> kids b (flats (Some n) b ts).*1 n = bases b ts.
  Proof.
    revert b. induction ts as [|t ts IH]; intros b Hn; [done|]. cbn [flats bases]. rewrite fmap_app, kids_app, kids_flat by done. cbn. f_equal.
    rewrite map_length, (flat_length None (Some n) 0 b). apply IH. lia.
  Qed.

  Lemma inside_app_l ps ps' n : inside (ps ++ ps') -> length ps <= n -> Some n ∉ ps.
  Proof.
    intros Hi Hn [i Hi']%elem_of_list_lookup. pose proof (lookup_lt_Some _ _ _ Hi') as Hl.
    specialize (Hi i n). rewrite lookup_app_l in Hi by done. specialize (Hi Hi'). lia.
  Qed.

  Lemma calls_app (t : optree E) xs ys : calls_of_events t (xs ++ ys) =
    (let? a := calls_of_events t xs in let? b := calls_of_events t ys in Ok (a ++ b)).
  Proof.
    induction xs as [|x xs IH]; cbn [app calls_of_events].
    - cbn. by destruct (calls_of_events t ys).
    - rewrite IH. destruct (calls_of_event t x) as [c| | |]; cbn; [|done..]. destruct (calls_of_events t xs) as [a| | |]; cbn; [|done..].
      destruct (calls_of_events t ys); cbn; [|done..]. by rewrite app_assoc.
  Qed.

  (** Parents in [post] do not lie in the part from [b] to [e]. *)
  Definition outside L (b e : nat) : Prop := forall q, Some q ∈ L.*1 -> ~ (b <= q < e).

  Lemma calls_sub (u : otree E) : forall par pre post L T g,
    L = pre ++ flat par (length pre) u ++ post -> inside L.*1 -> outside post (length pre) (length pre + length (flat None 0 u)) ->
    weights g = L.*2 -> spans (child_rows L.*1) T -> root T = length pre ->
    calls_of_events g (tree_events T) = Ok (calls u).
  Proof.
    induction u as [x ts IH] using otree_rect'. intros par pre post L T g HL Hin Hout Hw Hsp Hroot.
    destruct T as [n bs]. cbn in Hroot. subst n. inversion Hsp as [? ? Hks Hbs]; subst n bs0.
    set (b := length pre) in *. rewrite flat_node in HL, Hout.
    assert (Hlen : length L = b + S (length (flats (Some b) (S b) ts) + length post)).
    { rewrite HL. rewrite !app_length. cbn. rewrite ?app_length. unfold b. lia. }
    assert (Hfl : forall q c, length (flats q c ts) = length (flats (Some 0) 1 ts)).
    { intros q c. pose proof (flat_length q None c 0 (OTree x ts)). clear -ts. generalize 1 as d, (Some 0) as r. revert q c.
      induction ts as [|t ts IH]; intros q c d r; [done|]. cbn [flats]. rewrite !app_length, (flat_length q r c d). f_equal. apply IH. }
    (* the children *)
    assert (Hrow : row (child_rows L.*1) b = map (fun c => Edge c 0 tt) (bases (S b) ts)).
    { unfold row. rewrite child_rows_lookup by (rewrite map_length; lia). cbn. f_equal. rewrite children_kids.
      rewrite HL in Hin |- *. rewrite !fmap_app in Hin |- *. rewrite kids_app. rewrite kids_none by (eapply inside_app_l; [exact Hin|rewrite map_length; fold b; lia]).
      rewrite map_length. fold b. cbn [fmap list_fmap app fst]. rewrite Nat.add_0_l. cbn [kids].
      rewrite decide_False. 2:{ intros ->. specialize (Hin b b). rewrite lookup_app_r in Hin by (rewrite map_length; fold b; lia).
        rewrite map_length in Hin. fold b in Hin. rewrite Nat.sub_diag in Hin. cbn in Hin. specialize (Hin eq_refl). lia. }
      rewrite kids_app, kids_flats by lia. rewrite (kids_none _ post.*1). { by rewrite app_nil_r. }
      intros Hq. apply (Hout b Hq). cbn. lia. }
    rewrite Hrow in Hks, Hbs. rewrite map_length in Hks.
    (* the branches *)
    assert (Hbr : forall ts' k pre' bs', Forall (fun t => t ∈ ts) ts' -> L = pre' ++ flats (Some b) (length pre') ts' ++ post -> b < length pre' ->
       length pre' + length (flats (Some b) (length pre') ts') = b + S (length (flats (Some b) (S b) ts)) ->
       map (fun y => root y.2) bs' = bases (length pre') ts' -> Forall (fun y => spans (child_rows L.*1) y.2) bs' ->
       calls_of_events g (concat (map (fun y => First b (y.1 + k) :: tree_events y.2) bs')) = Ok (concat (map calls ts'))).
    { clear Hks Hbs Hrow Hsp. induction ts' as [|t ts' IHt]; intros k pre' bs' Hall HL' Hb Hend Hr Hs.
      - destruct bs' as [|y bs']; [done|done].
      - destruct bs' as [|y bs']; [done|]. cbn [map bases] in Hr. injection Hr as Hr1 Hr2. cbn [map concat].
        apply Forall_cons in Hs as [Hs1 Hs2]. apply Forall_cons in Hall as [Ht Hall].
        change ((First b (y.1 + k) :: tree_events y.2) ++ ?l) with ([First b (y.1 + k)] ++ tree_events y.2 ++ l). rewrite !calls_app. cbn [calls_of_events calls_of_event rbind app].
        cbn [flats] in HL'. rewrite <- app_assoc in HL'. rewrite Forall_forall in IH. cbn [flats] in Hend. rewrite app_length in Hend.
        assert (Hft : length (flat (Some b) (length pre') t) = length (flat None 0 t)) by apply flat_length.
        rewrite (IH t Ht (Some b) pre' (flats (Some b) (length pre' + length (flat (Some b) (length pre') t)) ts' ++ post) L y.2 g HL' Hin); [|..|done|done|done].
        + cbn [rbind]. rewrite (IHt k (pre' ++ flat (Some b) (length pre') t) bs'); [done|done|..|done].
          * by rewrite app_length, <- app_assoc.
          * rewrite app_length. lia.
          * rewrite app_length. lia.
          * rewrite app_length, Hft. done.
        + intros q Hq. rewrite fmap_app in Hq. apply elem_of_app in Hq as [[i Hi]%elem_of_list_lookup|Hq].
          * apply flats_parents in Hi as [[= ->]|(p & [= <-] & Hp)]; lia.
          * specialize (Hout q Hq). cbn in Hout. rewrite (Hfl (Some b) (S b)) in Hend. lia. }
    cbn [tree_events calls]. change (Before b :: ?l) with ([Before b] ++ l). rewrite !calls_app. cbn [calls_of_events calls_of_event].
    assert (Hx : rget (weights g) b = Ok x).
    { unfold rget. rewrite Hw, list_lookup_fmap, HL, lookup_app_r, Nat.sub_diag by (unfold b; lia). done. }
    rewrite Hx. cbn [rbind]. rewrite app_nil_r.
    specialize (Hbr ts 0 (pre ++ [(par, x)]) bs). rewrite app_length in Hbr. cbn [length] in Hbr. fold b in Hbr.
    replace (b + 1) with (S b) in Hbr by lia.
    assert (Heq : map (fun y : nat * tree => First b (y.1 + 0) :: tree_events y.2) bs = map (fun y => First b y.1 :: tree_events y.2) bs).
    { apply map_ext. intros y. by rewrite Nat.add_0_r. }
    rewrite Heq in Hbr. rewrite Hbr; [cbn; by rewrite app_nil_r|..].
    - by apply Forall_forall.
    - by rewrite <- app_assoc.
    - lia.
    - lia.
    - clear Hbr Heq. revert Hks Hbs. generalize (bases (S b) ts) as cs. intros cs Hks Hbs. apply list_eq. intros i. rewrite list_lookup_fmap.
      destruct (bs !! i) as [y|] eqn:Ey; cbn.
      + rewrite Forall_forall in Hbs. destruct (Hbs y ltac:(by eapply elem_of_list_lookup_2)) as [Hy _].
        assert (Hy1 : map fst bs !! i = Some y.1) by (by rewrite list_lookup_fmap, Ey). rewrite Hks in Hy1. apply lookup_seq in Hy1 as [Hy1 _]. cbn in Hy1.
        rewrite Hy1, list_lookup_fmap in Hy. destruct (cs !! i); [|done]. cbn in Hy. by injection Hy as <-.
      + symmetry. apply lookup_ge_None. apply lookup_ge_None in Ey. apply (f_equal length) in Hks. rewrite map_length, seq_length in Hks. lia.
    - eapply Forall_impl; [exact Hbs|]. by intros y [_ ?].
  Qed.

  Lemma flat_inside (t : otree E) : inside (flat None 0 t).*1.
  Proof. intros i p H. apply flat_parents in H as [[_ ?]|(_ & q & [= <-] & ?)]; [done|lia]. Qed.

  Lemma inside_anc ps : inside ps -> ps !! 0 = Some None -> (forall i, 0 < i -> ps !! i <> Some None) -> forall n, n < length ps -> anc ps n 0.
  Proof.
    intros Hi H0 Hno n. induction (lt_wf n) as [n _ IH]. intros Hn. destruct (decide (n = 0)) as [->|Hne]; [by constructor|].
    destruct (lookup_lt_is_Some_2 ps n Hn) as [[p|] Hp]; [|by destruct (Hno n ltac:(lia))]. pose proof (Hi n p Hp). eapply anc_up; [done|]. apply IH; lia.
  Qed.

  Lemma child_rows_targets ps n : n < length ps -> map tgt (row (child_rows ps) n) = children_of ps n.
  Proof.
    intros Hn. unfold row. rewrite child_rows_lookup by done. cbn. rewrite map_map. cbn. by rewrite map_id.
  Qed.

  Lemma child_rows_rep ps : tree_rep Forward (child_rows ps) ps.
  Proof. split; [by rewrite child_rows_length|]. intros n Hn. by rewrite child_rows_targets. Qed.

  Lemma child_rows_in_range ps : in_range (child_rows ps).
  Proof.
    intros i e He. rewrite child_rows_length. destruct (decide (i < length ps)) as [Hi|Hi].
    - apply (children_lt ps i). rewrite <- child_rows_targets by done. apply elem_of_list_fmap. by exists e.
    - unfold row in He. rewrite lookup_ge_None_2 in He by (rewrite child_rows_length; lia). by apply elem_of_nil in He.
  Qed.

  Lemma calls_tree (g : optree E) (u : otree E) : represents g u ->
    exists xs, traverse_dfs false 0 (edges g) = Ok xs /\ calls_of_events g xs = Ok (calls u).
  Proof.
    intros [He Hw]. rewrite He. destruct (dfs_tree_all false (child_rows (flat None 0 u).*1) (flat None 0 u).*1 0) as (T & HT & Hr & Hs & _).
    - apply child_rows_in_range.
    - apply child_rows_rep.
    - destruct u. by rewrite flat_node.
    - apply inside_anc; [apply flat_inside| |].
      + destruct u. by rewrite flat_node.
      + intros i Hi H. apply flat_parents in H as [[? _]|(_ & q & ? & _)]; [lia|done].
    - exists (tree_events T). split; [done|]. apply (calls_sub u None [] [] (flat None 0 u) T g); try done.
      + by rewrite app_nil_r.
      + apply flat_inside.
      + intros q Hq. by apply elem_of_nil in Hq.
  Qed.

  Lemma calls_trees (gs : list (optree E)) ts : Forall2 represents gs ts -> calls_of_trees gs = Ok (concat (map calls ts)).
  Proof.
    induction 1 as [|g u gs ts Hg _ IH]; [done|]. cbn [calls_of_trees map concat]. destruct (calls_tree g u Hg) as (xs & -> & Hc).
    cbn [rbind]. rewrite Hc, IH. done.
  Qed.
End invoke.
