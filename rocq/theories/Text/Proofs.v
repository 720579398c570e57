(** Proofs about searching and substitution. *)
From Coq Require Import Ascii.
From stdpp Require Import list sets.
From Verif.Base Require Import Outcome ListLemmas.
From Verif.Text Require Import Model Spec.
Local Open Scope res_scope.

(** ** Searching *)

Lemma starts_with_spec from l : starts_with from l = true <-> exists post, l = from ++ post.
Proof.
  revert l. induction from as [|x from IH]; intros [|y l]; simpl.
  - split; eauto.
  - split; eauto.
  - split; [done|]. intros [post ?]. done.
  - case_decide as E.
    + rewrite IH. subst. split; intros [post H]; exists post; congruence.
    + split; [done|]. intros [post [= H _]]. by subst.
Qed.

Lemma occurs_at_0 from l : occurs_at from l 0 <-> exists post, l = from ++ post.
Proof.
  split.
  - intros (pre&post&->&Hl). destruct pre; [|done]. eauto.
  - intros [post ->]. by exists [], post.
Qed.

Lemma occurs_at_S from x l i : occurs_at from (x :: l) (S i) <-> occurs_at from l i.
Proof.
  split.
  - intros ([|y pre]&post&Heq&Hl); [done|]. injection Heq as -> ->. exists pre, post. split; [done|]. simpl in Hl. lia.
  - intros (pre&post&->&Hl). exists (x :: pre), post. split; [done|]. simpl. lia.
Qed.

Lemma occurs_at_app from l1 l2 i : occurs_at from (l1 ++ l2) (length l1 + i) <-> occurs_at from l2 i.
Proof. induction l1 as [|x l1 IH]; simpl; [done|]. by rewrite occurs_at_S. Qed.

Lemma occurs_at_app_r from l1 l2 i : occurs_at from l1 i -> occurs_at from (l1 ++ l2) i.
Proof. intros (pre&post&->&Hl). exists pre, (post ++ l2). split; [|done]. by rewrite <- !app_assoc. Qed.

Lemma occurs_at_len from l i : occurs_at from l i -> i + length from <= length l.
Proof. intros (pre&post&->&<-). rewrite !app_length. lia. Qed.

Lemma occurs_at_nil_r from i : occurs_at from [] i -> i = 0 /\ from = [].
Proof. intros H. apply occurs_at_len in H. simpl in H. split; [lia|]. apply nil_length_inv. lia. Qed.

Lemma find_first_spec from l :
  match find_first from l with
  | Some i => first_at from l i
  | None => ~ occurs from l
  end.
Proof.
  induction l as [|x l IH]; simpl.
  - destruct (starts_with from []) eqn:E.
    + apply starts_with_spec in E. split; [by apply occurs_at_0|lia].
    + intros [i Hi]. destruct (occurs_at_nil_r _ _ Hi) as [-> ->]. done.
  - destruct (starts_with from (x :: l)) eqn:E.
    + apply starts_with_spec in E. split; [by apply occurs_at_0|lia].
    + assert (~ occurs_at from (x :: l) 0) as H0.
      { intros H%occurs_at_0. apply starts_with_spec in H. congruence. }
      destruct (find_first from l) as [i|]; simpl.
      * destruct IH as [H1 H2]. split; [by apply occurs_at_S|].
        intros [|j] Hj; [done|]. apply (proj1 (occurs_at_S _ _ _ _)), H2 in Hj. lia.
      * intros [[|i] Hi]; [done|]. apply IH. exists i. exact (proj1 (occurs_at_S _ _ _ _) Hi).
Qed.

Lemma first_at_fun from l i j : first_at from l i -> first_at from l j -> i = j.
Proof. intros [H1 H2] [H3 H4]. apply H2 in H3. apply H4 in H1. lia. Qed.

Lemma find_first_Some from l i : find_first from l = Some i <-> first_at from l i.
Proof.
  pose proof (find_first_spec from l) as H. split.
  - intros E. by rewrite E in H.
  - intros Hi. destruct (find_first from l) as [j|].
    + by rewrite (first_at_fun _ _ _ _ H Hi).
    + exfalso. apply H. exists i. apply Hi.
Qed.

Lemma find_first_None from l : find_first from l = None <-> ~ occurs from l.
Proof.
  pose proof (find_first_spec from l) as H. split.
  - intros E. by rewrite E in H.
  - intros Hn. destruct (find_first from l) as [j|]; [|done]. exfalso. apply Hn. exists j. apply H.
Qed.

(** Searching from the end of a known prefix. *)
Lemma find_from_app from l1 l2 :
  find_from (l1 ++ l2) from (length l1) = Nat.add (length l1) <$> find_first from l2.
Proof.
  unfold find_from. rewrite decide_True by (rewrite app_length; lia). by rewrite drop_app.
Qed.

Lemma find_from_app_None from l1 l2 : ~ occurs from l2 -> find_from (l1 ++ l2) from (length l1) = None.
Proof. intros H. rewrite find_from_app. by rewrite (proj2 (find_first_None _ _) H). Qed.

Lemma find_from_app_Some from l1 pre post :
  first_at from (pre ++ from ++ post) (length pre) ->
  find_from (l1 ++ pre ++ from ++ post) from (length l1) = Some (length l1 + length pre).
Proof. intros H. rewrite find_from_app. by rewrite (proj2 (find_first_Some _ _ _) H). Qed.

Lemma find_from_beyond l from pos : length l < pos -> find_from l from pos = None.
Proof. intros H. unfold find_from. rewrite decide_False; [done|lia]. Qed.

Lemma first_or_none from l :
  ~ occurs from l \/ exists pre post, l = pre ++ from ++ post /\ first_at from (pre ++ from ++ post) (length pre).
Proof.
  pose proof (find_first_spec from l) as H. destruct (find_first from l) as [i|]; [right|by left].
  destruct H as [(pre&post&->&<-) H2]. exists pre, post. split; [done|]. split; [|done]. by exists pre, post.
Qed.

Lemma splice_app l1 mid l2 to : splice (l1 ++ mid ++ l2) (length l1) (length mid) to = l1 ++ to ++ l2.
Proof.
  unfold splice. rewrite take_app. f_equal. f_equal.
  rewrite app_assoc, <- app_length. by rewrite drop_app.
Qed.

(** ** replace, replace_all *)

Lemma replace_spec l from to :
  match replace l from to with
  | out => (~ occurs from l /\ out = l) \/
           exists pre post, l = pre ++ from ++ post /\ first_at from l (length pre) /\ out = pre ++ to ++ post
  end.
Proof.
  unfold replace. destruct (first_or_none from l) as [H|(pre&post&->&H)].
  - left. pose proof (find_from_app_None from [] l H) as E. simpl in E. rewrite E. done.
  - right. pose proof (find_from_app_Some from [] pre post H) as E. simpl in E. rewrite E.
    exists pre, post. split; [done|]. split; [done|]. by rewrite splice_app.
Qed.

Lemma replace_all_loop_spec from to : from <> [] -> forall fuel pre0 rest,
  length rest < fuel ->
  exists out, replace_all_loop fuel (pre0 ++ rest) from to (length pre0) = Ok (pre0 ++ out) /\
              replaced from to rest out.
Proof.
  intros Hne. induction fuel as [|fuel IH]; intros pre0 rest Hf; [lia|]. simpl.
  destruct (first_or_none from rest) as [H|(pre&post&->&H)].
  - rewrite find_from_app_None by done. exists rest. split; [done|by constructor].
  - rewrite find_from_app_Some by done.
    rewrite app_assoc, <- app_length, splice_app.
    rewrite app_assoc, <- app_length.
    destruct from as [|x from]; [done|]. rewrite !app_length in Hf. simpl in Hf.
    destruct (IH ((pre0 ++ pre) ++ to) post) as (out&E&HR); [lia|].
    rewrite E. exists (pre ++ to ++ out). split; [by rewrite <- !app_assoc|]. by constructor.
Qed.

Lemma replace_all_ok fuel l from to : from <> [] -> length l < fuel ->
  exists out, replace_all fuel l from to = Ok out /\ replaced from to l out.
Proof. intros Hne Hf. apply (replace_all_loop_spec from to Hne fuel [] l Hf). Qed.

Lemma replaced_fun from to l a b : from <> [] -> replaced from to l a -> replaced from to l b -> a = b.
Proof.
  intros Hne H. revert b. induction H as [l Hn|pre post out H1 HR IH]; intros b Hb.
  - inversion Hb as [l' Hn'|pre post out H1 HR]; subst; [done|].
    exfalso. apply Hn. exists (length pre). apply H1.
  - inversion Hb as [l' Hn'|pre' post' out' H1' HR' Heq]; subst.
    + exfalso. apply Hn'. exists (length pre). apply H1.
    + rewrite Heq in H1'. pose proof (first_at_fun _ _ _ _ H1 H1') as El.
      apply app_inj_1 in Heq as [-> Heq]; [|done].
      apply app_inj_1 in Heq as [_ ->]; [|done]. f_equal. f_equal. by apply IH.
Qed.

Lemma replace_all_unique fuel l from to out : from <> [] -> length l < fuel -> replaced from to l out ->
  replace_all fuel l from to = Ok out.
Proof.
  intros Hne Hf HR. destruct (replace_all_ok fuel l from to Hne Hf) as (o&E&HR').
  rewrite E. f_equal. by apply (replaced_fun from to l).
Qed.

Lemma occurs_at_char c l i : occurs_at [c] l i <-> l !! i = Some c.
Proof.
  split.
  - intros (pre&post&->&<-). cbn [app]. by apply list_lookup_middle.
  - intros H. exists (take i l), (drop (S i) l). split; [by rewrite <- (take_drop_middle l i c) at 1|].
    apply lookup_lt_Some in H. rewrite take_length. lia.
Qed.

Lemma occurs_char c l : occurs [c] l <-> c ∈ l.
Proof.
  unfold occurs. rewrite elem_of_list_lookup. split; intros [i Hi]; exists i; by apply occurs_at_char.
Qed.

Lemma first_at_char c pre post : first_at [c] (pre ++ [c] ++ post) (length pre) <-> c ∉ pre.
Proof.
  split.
  - intros [_ H] [i Hi]%elem_of_list_lookup.
    assert (length pre <= i) as Hle.
    { apply H, occurs_at_char. by apply lookup_app_l_Some. }
    apply lookup_lt_Some in Hi. lia.
  - intros Hn. split; [by exists pre, post|]. intros j Hj%occurs_at_char.
    destruct (decide (j < length pre)) as [Hlt|]; [|lia].
    exfalso. apply Hn. apply elem_of_list_lookup. exists j. by rewrite lookup_app_l in Hj.
Qed.

Lemma subst_char_app c to l1 l2 : subst_char c to (l1 ++ l2) = subst_char c to l1 ++ subst_char c to l2.
Proof. unfold subst_char. by rewrite map_app, concat_app. Qed.

Lemma subst_char_none c to l : c ∉ l -> subst_char c to l = l.
Proof.
  induction l as [|x l IH]; intros H; [done|]. unfold subst_char in *. simpl.
  rewrite decide_False by set_solver. simpl. f_equal. apply IH. set_solver.
Qed.

Lemma replaced_char c to l : replaced [c] to l (subst_char c to l).
Proof.
  induction l as [l IH] using (induction_ltof1 _ length). unfold ltof in IH.
  destruct (first_or_none [c] l) as [H|(pre&post&->&H)].
  - rewrite subst_char_none; [by constructor|]. intros Hc. by apply H, occurs_char.
  - rewrite !subst_char_app. rewrite (subst_char_none c to pre) by (by apply first_at_char in H).
    assert (subst_char c to [c] = to) as ->.
    { unfold subst_char. simpl. rewrite decide_True by done. by rewrite app_nil_r. }
    constructor; [done|]. apply IH. rewrite !app_length. simpl. lia.
Qed.

Lemma replace_all_char fuel l c to : length l < fuel -> replace_all fuel l [c] to = Ok (subst_char c to l).
Proof. intros Hf. apply replace_all_unique; [done|done|]. apply replaced_char. Qed.

(** An empty pattern is found again and again. *)
Lemma find_first_nil l : find_first [] l = Some 0.
Proof. by destruct l. Qed.

Lemma find_from_nil l pos : pos <= length l -> find_from l [] pos = Some pos.
Proof. intros H. unfold find_from. rewrite decide_True by done. rewrite find_first_nil. simpl. by rewrite Nat.add_0_r. Qed.

Lemma replace_all_empty_loop fuel : forall l to pos, pos <= length l -> replace_all_loop fuel l [] to pos = NoFuel.
Proof.
  induction fuel as [|fuel IH]; intros l to pos H; [done|]. simpl. rewrite find_from_nil by done.
  apply IH. unfold splice. rewrite !app_length, take_length. lia.
Qed.

Lemma replace_all_empty fuel l to : replace_all fuel l [] to = NoFuel.
Proof. apply replace_all_empty_loop. lia. Qed.

(** A list of substitutions is performed one after the other. *)
Lemma replace_all_list_app fuel l rs1 rs2 :
  replace_all_list fuel l (rs1 ++ rs2) = (let? l' := replace_all_list fuel l rs1 in replace_all_list fuel l' rs2).
Proof.
  revert l. induction rs1 as [|[from to] rs1 IH]; intros l; [done|]. simpl.
  destruct (replace_all fuel l from to); simpl; [apply IH|done..].
Qed.

(** ** Substitution with conditions on the neighbours *)

Lemma last_or_app d l1 l2 : last_or (last_or d l1) l2 = last_or d (l1 ++ l2).
Proof. unfold last_or. rewrite last_app. by destruct (last l2). Qed.

Lemma neighbours_ok_spec lp rp pre from post :
  neighbours_ok lp rp (pre ++ from ++ post) from (length pre) =
  Ok (lp (last_or zero pre) && rp (head_or zero post)).
Proof.
  unfold neighbours_ok.
  assert ((match length pre with
           | 0 => Ok (lp zero)
           | S pos' => let? c := rget (pre ++ from ++ post) pos' in Ok (lp c)
           end) = Ok (lp (last_or zero pre))) as ->.
  { destruct pre as [|x pre _] using rev_ind; [done|]. rewrite app_length. simpl. rewrite Nat.add_comm. simpl.
    unfold rget. rewrite <- app_assoc. simpl. rewrite list_lookup_middle by done. simpl.
    unfold last_or. by rewrite last_snoc. }
  simpl. destruct (lp (last_or zero pre)); [|done]. simpl.
  destruct post as [|c post].
  - rewrite decide_False by (rewrite !app_length; simpl; lia).
    rewrite decide_True by (rewrite !app_length; simpl; lia). done.
  - rewrite decide_True by (rewrite !app_length; simpl; lia).
    unfold rget. rewrite app_assoc, <- app_length, list_lookup_middle by done. done.
Qed.

Lemma replace_if_loop_ends lp rp from to fuel : forall pre0 rest, length rest + 1 < fuel ->
  exists out, replace_if_loop fuel lp rp (pre0 ++ rest) from to (length pre0) = Ok (pre0 ++ out).
Proof.
  induction fuel as [|fuel IH]; intros pre0 rest Hf; [lia|]. simpl.
  destruct (first_or_none from rest) as [H|(pre&post&->&H)].
  - rewrite find_from_app_None by done. by exists rest.
  - rewrite find_from_app_Some by done.
    rewrite app_assoc, <- app_length, neighbours_ok_spec. simpl.
    rewrite splice_app. rewrite !app_length in Hf.
    destruct (_ && _).
    + destruct post as [|c post].
      * destruct fuel as [|fuel]; [lia|]. simpl. rewrite find_from_beyond by (rewrite !app_length; simpl; lia).
        exists (pre ++ to). by rewrite app_nil_r, app_assoc.
      * destruct (IH (((pre0 ++ pre) ++ to) ++ [c]) post) as [out E]; [simpl in Hf; lia|].
        rewrite !app_length in E. rewrite !app_length. simpl in *.
        rewrite <- !app_assoc in E. rewrite <- !app_assoc. simpl in *.
        replace (length pre0 + length pre + (length to + 1)) with (length pre0 + length pre + length to + 1) by lia.
        rewrite E. by exists (pre ++ to ++ c :: out).
    + destruct post as [|c post].
      * destruct fuel as [|fuel]; [lia|]. simpl. rewrite find_from_beyond by (rewrite !app_length; simpl; lia).
        exists (pre ++ from). by rewrite app_nil_r, app_assoc.
      * destruct (IH (((pre0 ++ pre) ++ from) ++ [c]) post) as [out E]; [simpl in Hf; lia|].
        rewrite !app_length in E. rewrite !app_length. simpl in *.
        rewrite <- !app_assoc in E. rewrite <- !app_assoc. simpl in *.
        replace (length pre0 + length pre + (length from + 1)) with (length pre0 + length pre + length from + 1) by lia.
        rewrite E. by exists (pre ++ from ++ c :: out).
Qed.

Lemma replace_if_ends lp rp from to l fuel : length l + 1 < fuel ->
  exists out, replace_if fuel lp rp l from to = Ok out.
Proof. intros Hf. apply (replace_if_loop_ends lp rp from to fuel [] l Hf). Qed.

Lemma apart_suffix from l1 l2 : apart from (l1 ++ l2) -> apart from l2.
Proof.
  intros H i j Hi Hj Hlt.
  apply (proj2 (occurs_at_app from l1 l2 i)) in Hi. apply (proj2 (occurs_at_app from l1 l2 j)) in Hj.
  pose proof (H _ _ Hi Hj). lia.
Qed.

(** One character which does not start an occurrence can be put in front. *)
Lemma replaced_if_cons lp rp from to prev c l out :
  ~ occurs_at from (c :: l) 0 -> replaced_if lp rp from to c l out ->
  replaced_if lp rp from to prev (c :: l) (c :: out).
Proof.
  intros H0 H.
  assert (forall pre post, first_at from (pre ++ from ++ post) (length pre) ->
    ~ occurs_at from (c :: pre ++ from ++ post) 0 ->
    first_at from ((c :: pre) ++ from ++ post) (length (c :: pre))) as Hshift.
  { intros pre post [H1 H2] Hn. split; [by apply occurs_at_S|].
    intros [|j] Hj; [done|]. simpl. apply (proj1 (occurs_at_S _ _ _ _)), H2 in Hj. lia. }
  assert (forall pre, last_or c pre = last_or prev (c :: pre)) as Hlast.
  { intros pre. exact (last_or_app prev [c] pre). }
  inversion H as [p l' Hn|p pre post o H1 Hl Hr HR|p pre post o H1 Hl HR]; subst.
  - constructor. intros [[|i] Hi]; [done|]. apply Hn. exists i. exact (proj1 (occurs_at_S _ _ _ _) Hi).
  - apply (replaced_if_yes lp rp from to prev (c :: pre) post o).
    + by apply Hshift.
    + by rewrite <- Hlast.
    + done.
    + rewrite <- app_comm_cons, <- Hlast. done.
  - apply (replaced_if_no lp rp from to prev (c :: pre) post o).
    + by apply Hshift.
    + by rewrite <- Hlast.
    + rewrite <- app_comm_cons, <- Hlast. done.
Qed.

Lemma occurs_at_post from pre post : apart from (pre ++ from ++ post) -> from <> [] ->
  ~ occurs_at from post 0.
Proof.
  intros H Hne H0.
  assert (occurs_at from (pre ++ from ++ post) (length pre)) as H1 by (by exists pre, post).
  assert (occurs_at from (pre ++ from ++ post) (length pre + length from)) as H2.
  { rewrite app_assoc, <- app_length, <- (Nat.add_0_r (length (pre ++ from))). by apply occurs_at_app. }
  pose proof (H _ _ H1 H2) as H3. destruct from; [done|]. simpl in H3. lia.
Qed.

Lemma replace_if_loop_apart lp rp from to fuel : from <> [] -> forall pre0 rest,
  length rest + 1 < fuel -> apart from rest ->
  exists out, replace_if_loop fuel lp rp (pre0 ++ rest) from to (length pre0) = Ok (pre0 ++ out) /\
    replaced_if lp rp from to (last_or zero pre0) rest out.
Proof.
  intros Hne. induction fuel as [|fuel IH]; intros pre0 rest Hf Hap; [lia|]. simpl.
  destruct (first_or_none from rest) as [H|(pre&post&->&H)].
  - rewrite find_from_app_None by done. exists rest. split; [done|]. by constructor.
  - rewrite find_from_app_Some by done.
    rewrite app_assoc, <- app_length, neighbours_ok_spec. simpl.
    rewrite splice_app. rewrite !app_length in Hf.
    pose proof (occurs_at_post _ _ _ Hap Hne) as Hpost.
    assert (apart from post) as Hap'.
    { rewrite app_assoc in Hap. by apply apart_suffix in Hap. }
    assert (forall prev, replaced_if lp rp from to prev [] []) as Hnil.
    { intros prev. constructor. intros [i Hi]. apply occurs_at_nil_r in Hi as [_ ->]. done. }
    destruct (lp (last_or zero (pre0 ++ pre))) eqn:El; [destruct (rp (head_or zero post)) eqn:Er|];
      cbn [andb].
    2, 3: destruct post as [|c post];
      [destruct fuel as [|fuel]; [lia|]; simpl; rewrite find_from_beyond by (rewrite !app_length; simpl; lia);
       exists (pre ++ from ++ []); split; [by rewrite <- !app_assoc|];
       apply replaced_if_no; [done|rewrite last_or_app; by auto|apply Hnil]
      |destruct (IH (((pre0 ++ pre) ++ from) ++ [c]) post) as (out&E&HR);
       [simpl in Hf; lia|by apply (apart_suffix _ [c])|];
       rewrite !app_length in E; rewrite !app_length; simpl in *;
       rewrite <- !app_assoc in E; rewrite <- !app_assoc; simpl in *;
       replace (length pre0 + length pre + (length from + 1)) with (length pre0 + length pre + length from + 1) by lia;
       rewrite E; exists (pre ++ from ++ c :: out); split; [done|];
       apply replaced_if_no; [done|rewrite last_or_app; by auto|];
       apply replaced_if_cons; [done|];
       unfold last_or in HR; rewrite last_snoc in HR; done].
    destruct post as [|c post].
    + destruct fuel as [|fuel]; [lia|]. simpl. rewrite find_from_beyond by (rewrite !app_length; simpl; lia).
      exists (pre ++ to ++ []). split; [by rewrite <- !app_assoc|].
      apply replaced_if_yes; [done|rewrite last_or_app; by auto|done|apply Hnil].
    + destruct (IH (((pre0 ++ pre) ++ to) ++ [c]) post) as (out&E&HR);
       [simpl in Hf; lia|by apply (apart_suffix _ [c])|].
      rewrite !app_length in E; rewrite !app_length; simpl in *.
      rewrite <- !app_assoc in E; rewrite <- !app_assoc; simpl in *.
      replace (length pre0 + length pre + (length to + 1)) with (length pre0 + length pre + length to + 1) by lia.
      rewrite E; exists (pre ++ to ++ c :: out); split; [done|].
      apply replaced_if_yes; [done|rewrite last_or_app; by auto|done|].
      apply replaced_if_cons; [done|].
      unfold last_or in HR; rewrite last_snoc in HR; done.
Qed.

Lemma replace_if_apart lp rp from to l fuel : from <> [] -> length l + 1 < fuel -> apart from l ->
  exists out, replace_if fuel lp rp l from to = Ok out /\ replaced_if lp rp from to zero l out.
Proof. intros Hne Hf Ha. apply (replace_if_loop_apart lp rp from to fuel Hne [] l Hf Ha). Qed.

Lemma replaced_if_fun lp rp from to prev l a b :
  from <> [] -> replaced_if lp rp from to prev l a -> replaced_if lp rp from to prev l b -> a = b.
Proof.
  intros Hne H. revert b.
  induction H as [prev l Hn|prev pre post out H1 Hl Hr HR IH|prev pre post out H1 Hl HR IH]; intros b Hb.
  - inversion Hb as [p' l' Hn'|p' pre post out H1|p' pre post out H1]; subst; [done|..];
      exfalso; apply Hn; exists (length pre); apply H1.
  - inversion Hb as [p' l' Hn'|p' pre' post' out' H1' Hl' Hr' HR' Ep Heq|p' pre' post' out' H1' Hl' HR' Ep Heq]; subst.
    + exfalso. apply Hn'. exists (length pre). apply H1.
    + rewrite Heq in H1'. pose proof (first_at_fun _ _ _ _ H1 H1') as El.
      apply app_inj_1 in Heq as [-> Heq]; [|done].
      apply app_inj_1 in Heq as [_ ->]; [|done]. f_equal. f_equal. by apply IH.
    + rewrite Heq in H1'. pose proof (first_at_fun _ _ _ _ H1 H1') as El.
      apply app_inj_1 in Heq as [-> Heq]; [|done].
      apply app_inj_1 in Heq as [_ ->]; [|done]. destruct Hl'; congruence.
  - inversion Hb as [p' l' Hn'|p' pre' post' out' H1' Hl' Hr' HR' Ep Heq|p' pre' post' out' H1' Hl' HR' Ep Heq]; subst.
    + exfalso. apply Hn'. exists (length pre). apply H1.
    + rewrite Heq in H1'. pose proof (first_at_fun _ _ _ _ H1 H1') as El.
      apply app_inj_1 in Heq as [-> Heq]; [|done].
      apply app_inj_1 in Heq as [_ ->]; [|done]. destruct Hl; congruence.
    + rewrite Heq in H1'. pose proof (first_at_fun _ _ _ _ H1 H1') as El.
      apply app_inj_1 in Heq as [-> Heq]; [|done].
      apply app_inj_1 in Heq as [_ ->]; [|done]. f_equal. f_equal. by apply IH.
Qed.

(** ** The recursive form *)

Lemma find_from_Some l from pos p : find_from l from pos = Some p ->
  exists pre0 pre post, l = pre0 ++ pre ++ from ++ post /\ length pre0 = pos /\ p = pos + length pre /\
    first_at from (pre ++ from ++ post) (length pre).
Proof.
  unfold find_from. case_decide as Hp; [|done].
  pose proof (find_first_spec from (drop pos l)) as H.
  destruct (find_first from (drop pos l)) as [i|]; [|done]. intros [= <-].
  destruct H as [(pre&post&Heq&<-) H2].
  exists (take pos l), pre, post. split; [by rewrite <- Heq, take_drop|].
  split; [rewrite take_length; lia|]. split; [done|]. rewrite Heq in H2. split; [by exists pre, post|done].
Qed.

Lemma find_from_None l from pos : find_from l from pos = None ->
  forall i, pos <= i -> ~ occurs_at from l i.
Proof.
  unfold find_from. case_decide as Hp.
  - pose proof (find_first_spec from (drop pos l)) as H.
    destruct (find_first from (drop pos l)) as [i|]; [done|]. intros _ i Hi Ho.
    apply H. exists (i - pos). rewrite <- (take_drop pos l) in Ho.
    apply (occurs_at_app from (take pos l)). rewrite take_length.
    replace (Nat.min pos (length l) + (i - pos)) with i by lia. done.
  - intros _ i Hi Ho%occurs_at_len. lia.
Qed.

Lemma recursive_loop_free from to : settles from to -> forall fuel l pos out,
  (forall i, occurs_at from l i -> pos <= i) ->
  replace_all_recursive_loop fuel l from to pos = Ok out -> ~ occurs from out.
Proof.
  intros Hs. induction fuel as [|fuel IH]; intros l pos out Hinv; [done|]. simpl.
  destruct (find_from l from pos) as [p|] eqn:E.
  - apply find_from_Some in E as (pre0&pre&post&->&Hl&->&H1). intros HR.
    apply IH in HR; [done|]. intros i Hi.
    rewrite app_assoc in Hi. rewrite <- Hl, <- app_length in Hi |- *. rewrite splice_app in Hi.
    apply Hs in Hi; [done|].
    split; [exists (pre0 ++ pre), []; by rewrite app_nil_r|].
    intros j Hj.
    assert (occurs_at from (pre0 ++ pre ++ from ++ post) j) as Hj'.
    { rewrite !app_assoc. by apply occurs_at_app_r. }
    pose proof (Hinv _ Hj') as Hge.
    replace j with (length pre0 + (j - length pre0)) in Hj' by lia.
    apply (proj1 (occurs_at_app _ _ _ _)), (proj2 H1) in Hj'. rewrite app_length. lia.
  - intros [= <-] [i Hi]. by apply (find_from_None _ _ _ E i (Hinv _ Hi)).
Qed.

Lemma recursive_free fuel l from to out : settles from to ->
  replace_all_recursive fuel l from to = Ok out -> ~ occurs from out.
Proof. intros Hs. apply recursive_loop_free; [done|lia]. Qed.

(** A replacement no longer than the pattern cannot go on for ever. *)
Lemma recursive_loop_ends from to : from <> [] -> length to <= length from ->
  forall fuel l pos, length l < fuel + pos -> 0 < fuel ->
  exists out, replace_all_recursive_loop fuel l from to pos = Ok out.
Proof.
  intros Hne Hlen. induction fuel as [|fuel IH]; intros l pos Hf H0; [lia|]. simpl.
  destruct (find_from l from pos) as [p|] eqn:E; [|eauto].
  apply find_from_Some in E as (pre0&pre&post&->&Hl&->&H1).
  assert (length pre0 + length pre + length from <= length (pre0 ++ pre ++ from ++ post)) as Hb
    by (rewrite !app_length; lia).
  destruct from as [|x from]; [done|]. change (length (x :: from)) with (S (length from)) in Hb.
  assert (length (splice (pre0 ++ pre ++ (x :: from) ++ post) (pos + length pre) (length (x :: from)) to)
          <= length (pre0 ++ pre ++ (x :: from) ++ post)) as Hle.
  { rewrite app_assoc, <- Hl, <- app_length, splice_app. rewrite !app_length. lia. }
  apply IH; lia.
Qed.

(** *** The use made of it: ">>" to "> >" *)

Fixpoint pairs (c : char) (l : text) : nat :=
  match l with
  | [] => 0
  | x :: l' => (match l' with
                | [] => 0
                | y :: _ => if decide (x = c /\ y = c) then 1 else 0
                end) + pairs c l'
  end.

Lemma pairs_len c l : pairs c l <= length l.
Proof. induction l as [|x l IH]; [done|]. cbn [pairs length]. destruct l; [lia|]. case_decide; lia. Qed.

Lemma occurs_cc_0 c l : occurs_at [c; c] l 0 <-> l !! 0 = Some c /\ l !! 1 = Some c.
Proof.
  rewrite occurs_at_0. split.
  - intros [post ->]. done.
  - intros [H1 H2]. destruct l as [|x [|y l]]; [done..|]. simpl in *. injection H1 as ->. injection H2 as ->. by exists l.
Qed.

Lemma spread_skip c s pre l : (forall i, occurs_at [c; c] (pre ++ l) i -> length pre <= i) ->
  spread c s (pre ++ l) = pre ++ spread c s l /\ pairs c (pre ++ l) = pairs c l.
Proof.
  induction pre as [|x pre IH]; intros H; [done|].
  destruct IH as [IH1 IH2].
  { intros i Hi. apply (proj2 (occurs_at_S _ x _ _)) in Hi. apply H in Hi. simpl in Hi. lia. }
  assert (~ occurs_at [c; c] (x :: pre ++ l) 0) as H0.
  { intros Ho. apply H in Ho. simpl in Ho. lia. }
  cbn [app]. destruct (pre ++ l) as [|y r] eqn:E; cbn [spread pairs].
  - cbn [app]. split; [f_equal; done|done].
  - assert (~ (x = c /\ y = c)) as Hxy.
    { intros [-> ->]. apply H0, occurs_cc_0. done. }
    rewrite !decide_False by done. cbn [app]. split; [f_equal; done|done].
Qed.

Lemma recursive_spread c s fuel : c <> s -> forall pre0 rest,
  pairs c rest < fuel ->
  replace_all_recursive_loop fuel (pre0 ++ rest) [c; c] [c; s; c] (length pre0) = Ok (pre0 ++ spread c s rest).
Proof.
  intros Hcs. induction fuel as [|fuel IH]; intros pre0 rest Hf; [lia|]. cbn [replace_all_recursive_loop].
  destruct (first_or_none [c; c] rest) as [H|(pre&post&->&H)].
  - rewrite find_from_app_None by done. f_equal. f_equal.
    destruct (spread_skip c s rest []) as [E _].
    { rewrite app_nil_r. intros i Hi. destruct H. by exists i. }
    rewrite !app_nil_r in E. done.
  - rewrite find_from_app_Some by done.
    rewrite app_assoc, <- app_length, splice_app.
    destruct (spread_skip c s pre ([c; c] ++ post)) as [E1 E2]; [apply H|].
    rewrite E1. rewrite E2 in Hf.
    assert (spread c s ([c; c] ++ post) = [c; s] ++ spread c s (c :: post)) as ->.
    { cbn [app spread]. rewrite decide_True by done. done. }
    assert (pairs c ([c; c] ++ post) = S (pairs c (c :: post))) as E3.
    { cbn [app pairs]. rewrite decide_True by done. done. }
    rewrite E3 in Hf.
    replace ((pre0 ++ pre) ++ [c; s; c] ++ post) with (((pre0 ++ pre) ++ [c]) ++ s :: c :: post)
      by (by rewrite <- !app_assoc).
    replace (S (length (pre0 ++ pre))) with (length ((pre0 ++ pre) ++ [c])) by (rewrite (app_length _ [c]); simpl; lia).
    assert (spread c s (s :: c :: post) = s :: spread c s (c :: post)) as E4.
    { cbn [spread]. rewrite decide_False; [done|]. intros [-> _]. done. }
    assert (pairs c (s :: c :: post) = pairs c (c :: post)) as E5.
    { cbn [pairs]. rewrite decide_False; [done|]. intros [-> _]. done. }
    rewrite IH by (rewrite E5; lia). rewrite E4. by rewrite <- !app_assoc.
Qed.

Lemma spread_head c s x l : exists l', spread c s (x :: l) = x :: l'.
Proof. simpl. eauto. Qed.

Lemma spread_free c s l : c <> s -> ~ occurs [c; c] (spread c s l).
Proof.
  intros Hcs. induction l as [|x l IH].
  - intros [i Hi]. apply occurs_at_nil_r in Hi as [_ ?]. done.
  - assert (forall z r, ~ occurs [c; c] r -> ~ occurs_at [c; c] (z :: r) 0 -> ~ occurs [c; c] (z :: r)) as Hc.
    { intros z r H1 H2 [[|i] Hi]; [done|]. apply H1. exists i. exact (proj1 (occurs_at_S _ _ _ _) Hi). }
    destruct l as [|y l].
    + cbn [spread app]. apply Hc; [apply IH|]. rewrite occurs_cc_0. intros [_ ?]. done.
    + change (spread c s (x :: y :: l)) with (x :: (if decide (x = c /\ y = c) then [s] else []) ++ spread c s (y :: l)).
      destruct (spread_head c s y l) as [l' E]. rewrite E in IH |- *.
      case_decide as Hd; cbn [app].
      * apply Hc; [apply Hc; [done|]|]; rewrite occurs_cc_0; simpl; intros [? ?]; congruence.
      * apply Hc; [done|]. rewrite occurs_cc_0. simpl. intros [? ?]. apply Hd. split; congruence.
Qed.

Lemma recursive_double fuel c s l : c <> s -> length l < fuel ->
  exists out, replace_all_recursive fuel l [c; c] [c; s; c] = Ok out /\ out = spread c s l /\ ~ occurs [c; c] out.
Proof.
  intros Hcs Hf. exists (spread c s l). split; [|split; [done|by apply spread_free]].
  apply (recursive_spread c s fuel Hcs [] l). pose proof (pairs_len c l). lia.
Qed.

(** A replacement which contains the pattern anywhere but at its start feeds the search for ever. *)
Lemma recursive_diverges from to i0 : occurs_at from to (S i0) -> forall fuel l pos,
  (exists i, pos <= i /\ occurs_at from l i) ->
  replace_all_recursive_loop fuel l from to pos = NoFuel.
Proof.
  intros Hto. induction fuel as [|fuel IH]; intros l pos (i&Hi&Ho); [done|]. simpl.
  destruct (find_from l from pos) as [p|] eqn:E.
  - apply find_from_Some in E as (pre0&pre&post&->&Hl&->&H1). apply IH.
    exists (length (pre0 ++ pre) + S i0). rewrite app_length. split; [lia|].
    rewrite app_assoc, <- Hl, <- app_length, splice_app.
    by apply occurs_at_app, occurs_at_app_r.
  - exfalso. by apply (find_from_None _ _ _ E i).
Qed.
