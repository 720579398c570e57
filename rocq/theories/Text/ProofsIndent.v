(** Proofs about indentation, block ends and delimiters. *)
From Coq Require Import Ascii.
From stdpp Require Import list sets.
From Verif.Base Require Import Outcome ListLemmas.
From Verif.Text Require Import Model Spec Proofs ProofsCase.
Local Open Scope res_scope.

Lemma lines_ne l : lines l <> [].
Proof. destruct l as [|c l]; simpl; [done|]. case_decide; [done|]. by destruct (lines l). Qed.

Lemma lines_flat w : nl ∉ w -> lines w = [w].
Proof.
  induction w as [|c w IH]; intros H; [done|]. simpl. rewrite decide_False by set_solver.
  rewrite IH by set_solver. done.
Qed.

Lemma lines_app w l : nl ∉ w -> lines (w ++ nl :: l) = w :: lines l.
Proof.
  induction w as [|c w IH]; intros H; [done|]. simpl. rewrite decide_False by set_solver.
  rewrite IH by set_solver. done.
Qed.

Lemma join_lines l : join [nl] (lines l) = l.
Proof.
  induction l as [|c l IH]; [done|]. simpl. case_decide as E.
  - subst. rewrite join_cons. destruct (lines l) as [|w ws] eqn:Es; [by apply lines_ne in Es|].
    rewrite join_cons in IH. cbn [map concat]. rewrite <- app_assoc, IH. done.
  - destruct (lines l) as [|w ws] eqn:Es; [by apply lines_ne in Es|].
    rewrite join_cons in *. by rewrite <- app_comm_cons, IH.
Qed.

Lemma lines_no_nl l : Forall (fun w => nl ∉ w) (lines l).
Proof.
  induction l as [|c l IH]; simpl; [constructor; [set_solver|constructor]|]. case_decide as E.
  - constructor; [set_solver|done].
  - destruct (lines l) as [|w ws] eqn:Es; [by apply lines_ne in Es|].
    apply Forall_cons in IH as [H1 H2]. constructor; [set_solver|done].
Qed.

Lemma lines_join w ws : Forall (fun w => nl ∉ w) (w :: ws) -> lines (join [nl] (w :: ws)) = w :: ws.
Proof.
  revert w. induction ws as [|v ws IH]; intros w H.
  - apply Forall_cons in H as [H _]. by apply lines_flat.
  - apply Forall_cons in H as [H1 H2].
    change (join [nl] (w :: v :: ws)) with (w ++ nl :: join [nl] (v :: ws)).
    rewrite lines_app by done. by rewrite IH.
Qed.

Definition indented (ind l : text) : text := join [nl] (map (indent_line ind) (lines l)).

Lemma indented_app ind w l : nl ∉ w -> indented ind (w ++ nl :: l) = indent_line ind w ++ nl :: indented ind l.
Proof.
  intros H. unfold indented. rewrite lines_app by done. cbn [map].
  destruct (lines l) as [|v ws] eqn:E; [by apply lines_ne in E|]. done.
Qed.

Lemma indented_flat ind w : nl ∉ w -> indented ind w = indent_line ind w.
Proof. intros H. unfold indented. by rewrite lines_flat. Qed.

Lemma indented_no ind l : ind = [] -> indented ind l = l.
Proof.
  intros ->. unfold indented. rewrite <- (join_lines l) at 2. f_equal.
  rewrite <- (map_id (lines l)) at 2. apply map_ext. by intros [|c w].
Qed.

Lemma indent_loop_spec ind sv fuel : forall pre rest str, sv = pre ++ rest -> length rest < fuel ->
  indent_loop fuel sv ind str (length pre) = Ok (str ++ indented ind rest).
Proof.
  induction fuel as [|fuel IH]; intros pre rest str Hsv Hf; [lia|]. cbn [indent_loop].
  assert (drop (length pre) sv = rest) as Hd by (rewrite Hsv; apply drop_app).
  destruct rest as [|c rest].
  - rewrite decide_False by (rewrite Hsv, app_nil_r; lia). unfold indented. simpl. by rewrite app_nil_r.
  - rewrite decide_True by (rewrite Hsv, app_length; simpl; lia). rewrite Hd.
    destruct (first_or_none [nl] (c :: rest)) as [H|(w&post&Heq&H)].
    + rewrite (proj2 (find_first_None _ _) H). rewrite occurs_char in H.
      rewrite bool_decide_eq_false_2.
      * rewrite indented_flat by done. done.
      * rewrite Forall_forall. intros HF. apply H. rewrite <- (HF c) by set_solver. set_solver.
    + rewrite Heq in *. rewrite (proj2 (find_first_Some _ _ _) H).
      apply first_at_char in H.
      assert (take (length w + 1) (w ++ [nl] ++ post) = w ++ [nl]) as ->.
      { rewrite app_assoc. replace (length w + 1) with (length (w ++ [nl])) by (rewrite app_length; done). apply take_app. }
      replace (length pre + (length w + 1)) with (length (pre ++ w ++ [nl])) by (rewrite !app_length; simpl; lia).
      rewrite (IH (pre ++ w ++ [nl]) post).
      * f_equal. change (w ++ [nl] ++ post) with (w ++ nl :: post). rewrite indented_app by done.
        rewrite <- !app_assoc. f_equal.
        destruct w as [|x w].
        -- rewrite bool_decide_eq_true_2; [done|]. by repeat constructor.
        -- rewrite bool_decide_eq_false_2; [cbn [indent_line]; by rewrite <- (app_assoc ind)|].
           intros HF. apply Forall_cons in HF as [-> _]. apply H. set_solver.
      * rewrite Hsv. by rewrite <- !app_assoc.
      * rewrite !app_length in Hf. simpl in Hf. lia.
Qed.

Lemma indent_spec fuel sv ind : length sv < fuel -> indent fuel sv ind = Ok (indented ind sv).
Proof.
  intros Hf. unfold indent. destruct sv as [|c sv]; [done|]. destruct ind as [|x ind].
  - by rewrite indented_no.
  - apply (indent_loop_spec (x :: ind) (c :: sv) fuel [] (c :: sv) []); done.
Qed.

Lemma unindent_indent_line ind w : nl ∉ w -> unindent_line ind (indent_line ind w) = w.
Proof.
  intros H. unfold unindent_line, indent_line. destruct w as [|c w].
  - rewrite take_nil. case_decide as E; [|done]. by rewrite drop_nil.
  - rewrite take_app. rewrite decide_True by done. by rewrite drop_app.
Qed.

Lemma indent_line_nl ind w : nl ∉ ind -> nl ∉ w -> nl ∉ indent_line ind w.
Proof. intros H1 H2. unfold indent_line. destruct w; [done|]. rewrite elem_of_app. intros [?|?]; done. Qed.

Lemma lines_indented ind l : nl ∉ ind -> lines (indented ind l) = map (indent_line ind) (lines l).
Proof.
  intros H. unfold indented. destruct (lines l) as [|w ws] eqn:E; [by apply lines_ne in E|].
  cbn [map]. apply lines_join. change (indent_line ind w :: map (indent_line ind) ws) with (map (indent_line ind) (w :: ws)).
  rewrite Forall_map. pose proof (lines_no_nl l) as HF. rewrite E in HF.
  eapply Forall_impl; [exact HF|]. intros v Hv. by apply indent_line_nl.
Qed.

Lemma unindent_indented ind l : nl ∉ ind ->
  join [nl] (map (unindent_line ind) (lines (indented ind l))) = l.
Proof.
  intros H. rewrite lines_indented by done. rewrite map_map.
  rewrite <- (join_lines l) at 2. f_equal. rewrite <- (map_id (lines l)) at 2. apply map_ext_in.
  intros w Hin. apply unindent_indent_line. pose proof (lines_no_nl l) as HF. rewrite Forall_forall in HF.
  apply HF. by apply elem_of_list_In.
Qed.

Lemma append_indented_spec fuel s1 s2 ind : length s2 < fuel ->
  append_indented fuel s1 s2 ind =
  Ok (match s2, s1 with [], _ => s1 | _, [] => s2 | _, _ => s1 ++ [nl] ++ join [nl] (map (indent_line ind) (lines s2)) end).
Proof.
  intros Hf. unfold append_indented. destruct s2 as [|c s2]; [done|]. destruct s1 as [|d s1]; [done|].
  by rewrite indent_spec.
Qed.

(** Several texts: the non-empty ones, on lines of their own. *)
Definition nonempty (l : text) : bool := match l with [] => false | _ => true end.

Lemma append_all_spec fuel ind : forall ss s, Forall (fun x => length x < fuel) ss -> s <> [] ->
  append_all_indented fuel s ss ind =
  Ok (s ++ concat (map (fun x => [nl] ++ indented ind x) (List.filter nonempty ss))).
Proof.
  induction ss as [|x ss IH]; intros s HF Hs; [simpl; by rewrite app_nil_r|].
  apply Forall_cons in HF as [Hx HF]. cbn [append_all_indented].
  rewrite append_indented_spec by done. cbn [rbind].
  destruct x as [|c x].
  - cbn [List.filter nonempty]. by apply IH.
  - destruct s as [|d s]; [done|]. fold (indented ind (c :: x)). rewrite IH; [|done|by destruct s].
    cbn [List.filter nonempty map concat]. by rewrite <- !app_assoc.
Qed.

Lemma append_lines_spec fuel ss s : Forall (fun x => length x < fuel) ss ->
  append_lines fuel s ss = Ok (join [nl] (List.filter nonempty (s :: ss))).
Proof.
  unfold append_lines. revert s. induction ss as [|x ss IH]; intros s HF.
  - simpl. destruct s; done.
  - destruct s as [|c s].
    + apply Forall_cons in HF as [Hx HF]. cbn [append_all_indented].
      rewrite append_indented_spec by done. cbn [rbind].
      assert (match x with [] => [] | _ => x end = x) as E by (by destruct x).
      destruct x as [|d x]; by apply IH.
    + rewrite append_all_spec by done. f_equal. cbn [List.filter nonempty].
      rewrite join_cons. f_equal. f_equal. apply map_ext. intros v. f_equal. by apply indented_no.
Qed.

Lemma indent_all_spec fuel sv ss ind : length sv < fuel -> Forall (fun x => length x < fuel) ss -> sv <> [] ->
  indent_all fuel sv ss ind =
  Ok (join [nl] (map (fun x => join [nl] (map (indent_line ind) (lines x))) (List.filter nonempty (sv :: ss)))).
Proof.
  intros Hf HF Hsv. unfold indent_all. rewrite indent_spec by done. cbn [rbind].
  rewrite append_all_spec; [|done|].
  - destruct sv as [|c sv]; [done|]. cbn [List.filter nonempty map]. rewrite join_cons. f_equal. f_equal.
    rewrite map_map. done.
  - unfold indented. pose proof (join_lines sv) as E. destruct (lines sv) as [|w ws] eqn:El; [by apply lines_ne in El|].
    rewrite join_cons in *. cbn [map]. rewrite join_cons. destruct w as [|c w].
    + cbn [indent_line]. destruct ws as [|v ws]; [by simpl in E; subst|]. simpl. done.
    + cbn [indent_line]. by destruct ind.
Qed.

Lemma tabs_to_spacing_spec fuel l spacing : length l < fuel ->
  tabs_to_spacing fuel l spacing = Ok (subst_char tab spacing l).
Proof.
  intros Hf. unfold tabs_to_spacing. case_decide as E.
  - subst. f_equal. unfold subst_char. clear Hf. induction l as [|x l IH]; [done|]. simpl. rewrite <- IH.
    case_decide; by subst.
  - rewrite <- (replace_all_char fuel l tab spacing Hf). unfold replace_all. clear. generalize 0 as pos. revert l.
    induction fuel as [|fuel IH]; intros l pos; [done|]. simpl. destruct (find_from l [tab] pos); [apply IH|done].
Qed.

Lemma trim_spec ind count : trim ind count = take (length ind - count) ind.
Proof. unfold trim. f_equal. lia. Qed.

(** ** end_block *)

Lemma repeat_snoc {A} (x : A) n : repeat x (S n) = repeat x n ++ [x].
Proof. simpl. by rewrite repeat_cons. Qed.

Lemma count_breaks_ge todo s n : n <= count_breaks todo s n.
Proof.
  revert n. induction todo as [|todo IH]; intros n; [done|]. simpl.
  destruct (s !! _) as [c|]; [|done]. case_decide; [|done]. specialize (IH (S n)). lia.
Qed.

Lemma count_breaks_spec s newlines : forall todo n,
  n + todo = Nat.min (length s) newlines -> ends_with_breaks n s ->
  let k := count_breaks todo s n in
  k <= newlines /\ ends_with_breaks k s /\ (k < newlines -> ~ ends_with_breaks (S k) s).
Proof.
  induction todo as [|todo IH]; intros n Hn Hend; cbn [count_breaks].
  - split; [lia|]. split; [done|]. intros Hk [l' Hl].
    apply (f_equal length) in Hl. rewrite app_length, repeat_length in Hl. lia.
  - destruct Hend as [l' Hl].
    assert (length s = length l' + n) as Hlen by (rewrite Hl, app_length, repeat_length; done).
    destruct l' as [|c l' _] using rev_ind; [simpl in Hlen; lia|].
    rewrite app_length in Hlen. simpl in Hlen.
    assert (s !! (length s - 1 - n) = Some c) as ->.
    { replace (length s - 1 - n) with (length l') by lia. rewrite Hl.
      rewrite <- app_assoc. by apply list_lookup_middle. }
    case_decide as E.
    + apply IH; [lia|]. exists l'. rewrite Hl, E. rewrite <- app_assoc. done.
    + split; [lia|]. split; [by exists (l' ++ [c])|]. intros _ [l'' Hl'']. rewrite Hl in Hl''.
      cbn [repeat] in Hl''. change (nl :: repeat nl n) with ([nl] ++ repeat nl n) in Hl''.
      rewrite (app_assoc l'') in Hl''. apply app_inv_tail in Hl''. apply app_inj_tail in Hl'' as [_ ?]. done.
Qed.

Lemma end_block_spec s newlines footer : s <> [] ->
  exists k, end_block s newlines footer = s ++ repeat nl k ++ footer /\
    ends_with_breaks newlines (s ++ repeat nl k) /\
    (0 < k -> ~ ends_with_breaks (S newlines) (s ++ repeat nl k)).
Proof.
  intros Hs. unfold end_block. destruct s as [|c s0] eqn:Es; [done|]. rewrite <- Es. clear Es s0 c Hs.
  pose proof (count_breaks_spec s newlines (Nat.min (length s) newlines) 0 eq_refl) as H.
  destruct H as (H1&H2&H3); [by exists s; rewrite app_nil_r|].
  set (n := count_breaks (Nat.min (length s) newlines) s 0) in *.
  exists (newlines - n). split; [done|]. destruct H2 as [l' Hl]. split.
  - exists l'. rewrite Hl at 1. rewrite <- app_assoc. f_equal. rewrite <- repeat_app. f_equal. lia.
  - intros Hk [l'' Hl'']. apply H3; [lia|]. exists l''.
    assert (repeat nl (S newlines) = repeat nl (S n) ++ repeat nl (newlines - n)) as E.
    { rewrite <- repeat_app. f_equal. lia. }
    rewrite E, app_assoc in Hl''. by apply app_inv_tail in Hl''.
Qed.

(** ** Delimiters *)

Lemma depth_cons o c x l : depth o c (x :: l) = ((if decide (x = o) then 1 else if decide (x = c) then -1 else 0) + depth o c l)%Z.
Proof. done. Qed.

Lemma match_loop_spec o c : forall l count pos, 0 < count ->
  match match_loop l o c count pos with
  | Some e => exists k, e = pos + k /\ 0 < k <= length l /\ (Z.of_nat count + depth o c (take k l))%Z = 0%Z /\
                (forall j, j < k -> (0 < Z.of_nat count + depth o c (take j l))%Z) /\ l !! (pred k) = Some c
  | None => forall j, j <= length l -> (0 < Z.of_nat count + depth o c (take j l))%Z
  end.
Proof.
  induction l as [|x l IH]; intros count pos H0; cbn [match_loop].
  - intros j Hj. rewrite take_nil. unfold depth. simpl. lia.
  - set (count' := if decide (x = o) then S count else if decide (x = c) then Nat.pred count else count).
    assert (Z.of_nat count' = Z.of_nat count + (if decide (x = o) then 1 else if decide (x = c) then -1 else 0))%Z as Hc'.
    { unfold count'. repeat case_decide; lia. }
    assert (forall j, Z.of_nat count + depth o c (take (S j) (x :: l)) = Z.of_nat count' + depth o c (take j l))%Z as Hstep.
    { intros j. cbn [take]. rewrite depth_cons. lia. }
    destruct count' as [|n] eqn:En.
    + exists 1. split; [lia|]. split; [simpl; lia|]. split; [rewrite Hstep; unfold depth; simpl; lia|].
      split.
      * intros j Hj. replace j with 0 by lia. unfold depth. simpl. lia.
      * simpl. f_equal. unfold count' in En. repeat case_decide; [done|done|lia].
    + specialize (IH (S n) (S pos) ltac:(lia)).
      destruct (match_loop l o c (S n) (S pos)) as [e|].
      * destruct IH as (k&->&Hk&Hz&Hpos&Hlk). exists (S k). split; [lia|]. split; [simpl; lia|].
        split; [by rewrite Hstep|]. split.
        -- intros [|j] Hj; [unfold depth; simpl; lia|]. rewrite Hstep. apply Hpos. lia.
        -- destruct k as [|k]; [lia|]. done.
      * intros [|j] Hj; [unfold depth; simpl; lia|]. rewrite Hstep. apply IH. simpl in Hj. lia.
Qed.

Lemma find_from_char_Some l o pos p : find_from l [o] pos = Some p ->
  pos <= p /\ l !! p = Some o /\ forall i, pos <= i < p -> l !! i <> Some o.
Proof.
  intros E. apply find_from_Some in E as (pre0&pre&post&->&<-&->&H). split; [lia|]. split.
  - rewrite app_assoc, <- app_length. by apply list_lookup_middle.
  - intros i Hi Hl. apply first_at_char in H. apply H. apply elem_of_list_lookup. exists (i - length pre0).
    rewrite lookup_app_r in Hl by lia. rewrite lookup_app_l in Hl by lia. done.
Qed.

Lemma matched_spec l o c pos :
  match find_matched_delimiters l o c pos with
  | None => forall i, pos <= i -> l !! i <> Some o
  | Some (p, e) =>
      pos <= p /\ l !! p = Some o /\ (forall i, pos <= i < p -> l !! i <> Some o) /\
      ((e = p /\ forall j, p < j <= length l -> (0 < depth o c (drop p (take j l)))%Z) \/
       (p + 1 < e <= length l /\ l !! (e - 1) = Some c /\ depth o c (drop p (take e l)) = 0%Z /\
        forall j, p < j < e -> (0 < depth o c (drop p (take j l)))%Z))
  end.
Proof.
  unfold find_matched_delimiters. destruct (find_from l [o] pos) as [p|] eqn:E.
  - pose proof (find_from_char_Some _ _ _ _ E) as (H1&H2&H3).
    pose proof (match_loop_spec o c (drop (S p) l) 1 (S p) ltac:(lia)) as HM.
    pose proof (lookup_lt_Some _ _ _ H2) as Hlt.
    assert (forall j, p < j -> depth o c (drop p (take j l)) = (1 + depth o c (take (j - S p) (drop (S p) l)))%Z) as Hd.
    { intros j Hj. rewrite <- (take_drop_middle l p o H2) at 1.
      assert (length (take p l) = p) as Ep by (rewrite take_length; lia).
      replace j with (length (take p l) + S (j - S p)) at 1 by lia.
      rewrite take_add_app by done.
      rewrite <- Ep at 1. rewrite drop_app. cbn [take]. rewrite depth_cons. by rewrite decide_True. }
    destruct (match_loop (drop (S p) l) o c 1 (S p)) as [e|].
    + destruct HM as (k&->&Hk&Hz&Hpos&Hlk). rewrite drop_length in Hk.
      split; [done|]. split; [done|]. split; [done|]. right. split; [lia|]. split; [|split].
      * rewrite lookup_drop in Hlk. replace (S p + k - 1) with (S p + Nat.pred k) by lia. done.
      * rewrite Hd by lia. replace (S p + k - S p) with k by lia. done.
      * intros j Hj. rewrite Hd by lia. apply Hpos. lia.
    + split; [done|]. split; [done|]. split; [done|]. left. split; [done|].
      intros j Hj. rewrite Hd by lia. apply HM. rewrite drop_length. lia.
  - intros i Hi Hl. apply (find_from_None _ _ _ E i Hi). by apply occurs_at_char.
Qed.

Lemma sandwiched_spec l lft rgt pos :
  match find_sandwiched_text l lft rgt pos with
  | None => forall i, pos <= i -> ~ occurs_at lft l i
  | Some (start, e) =>
      pos + length lft <= start /\ occurs_at lft l (start - length lft) /\
      (forall i, pos <= i < start - length lft -> ~ occurs_at lft l i) /\
      match e with
      | Some e => start <= e /\ occurs_at rgt l e /\ forall i, start <= i < e -> ~ occurs_at rgt l i
      | None => forall i, start <= i -> ~ occurs_at rgt l i
      end
  end.
Proof.
  assert (forall from pos p, find_from l from pos = Some p ->
            pos <= p /\ occurs_at from l p /\ forall i, pos <= i < p -> ~ occurs_at from l i) as HS.
  { intros from pos' p E. apply find_from_Some in E as (pre0&pre&post&->&<-&->&H). split; [lia|]. split.
    - by apply occurs_at_app, H.
    - intros i Hi Ho. replace i with (length pre0 + (i - length pre0)) in Ho by lia.
      apply (proj1 (occurs_at_app _ _ _ _)), (proj2 H) in Ho. lia. }
  unfold find_sandwiched_text. destruct (find_from l lft pos) as [st|] eqn:E.
  - apply HS in E as (H1&H2&H3).
    replace (st + length lft - length lft) with st by lia.
    split; [lia|]. split; [done|]. split; [done|].
    destruct (find_from l rgt (st + length lft)) as [e|] eqn:E2; [by apply HS|]. by apply find_from_None.
  - by apply find_from_None.
Qed.
