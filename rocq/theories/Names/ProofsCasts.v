(** Proofs about the removal of casts. *)
From Coq Require Import Ascii String.
From stdpp Require Import list relations.
From Verif.Base Require Import Outcome ListLemmas.
From Verif.Text Require Import Model Spec Proofs ProofsCase ProofsIndent.
From Verif.Names Require Import Model Spec Proofs.
Local Open Scope res_scope.
Local Notation "⌜ s ⌝" := (list_ascii_of_string s%string).
Local Notation length := List.length.
Local Notation lp := "("%char.
Local Notation rp := ")"%char.
Local Notation dep := (depth "(" ")").

Lemma digit_code_spec c : digit_code c = bool_decide (a_digit c).
Proof. destruct c as [[] [] [] [] [] [] [] []]; vm_compute; reflexivity. Qed.

Lemma isdigit_7 sc c : ascii7 c -> isdigit sc c = Ok (bool_decide (a_digit c)).
Proof. intros H. unfold isdigit. rewrite cctype_7 by done. by rewrite digit_code_spec. Qed.

Lemma digit_not_paren d : a_digit d -> d <> lp /\ d <> rp.
Proof. intros H. split; intros ->; apply (bool_decide_eq_true_2 _) in H; vm_compute in H; done. Qed.

Lemma depth_app l1 l2 : dep (l1 ++ l2) = (dep l1 + dep l2)%Z.
Proof. induction l1 as [|x l1 IH]; [done|]. cbn [app]. rewrite !depth_cons, IH. lia. Qed.

Lemma depth_single x : dep [x] = if decide (x = lp) then 1%Z else if decide (x = rp) then (-1)%Z else 0%Z.
Proof. rewrite depth_cons. unfold depth. simpl. lia. Qed.

(** ** Groups *)

Lemma group_prefix g1 g2 : group (g1 ++ g2) -> g1 <> [] -> g2 <> [] -> (0 < dep g1)%Z.
Proof.
  intros (_&_&H) H1 H2. destruct g1 as [|x g1]; [done|]. destruct g2 as [|y g2]; [done|].
  specialize (H (length (x :: g1))). rewrite take_app in H. apply H. rewrite app_length. simpl. lia.
Qed.

Lemma group_prefix_nonneg g1 g2 : group (g1 ++ g2) -> (0 <= dep g1)%Z.
Proof.
  intros H. destruct g1 as [|x g1]; [done|]. destruct g2 as [|y g2].
  - rewrite app_nil_r in H. destruct H as (_&->&_). done.
  - assert (0 < dep (x :: g1))%Z; [|lia]. by apply (group_prefix _ _ H).
Qed.

Lemma group_head g : group g -> exists g', g = lp :: g' /\ g' <> [].
Proof.
  intros (H1&H2&H3). destruct g as [|x g]; [done|]. injection H1 as ->. exists g. split; [done|]. intros ->.
  rewrite depth_single in H2. done.
Qed.

Lemma group_len g : group g -> 1 < length g.
Proof. intros (g'&->&H)%group_head. destruct g'; [done|]. simpl. lia. Qed.

(** The first prefix of depth zero. *)
Lemma closes l k : head l = Some lp -> 0 < k <= length l -> (dep (take k l) <= 0)%Z ->
  exists g rest, l = g ++ rest /\ group g.
Proof.
  intros Hh Hk Hd.
  assert (exists n, 0 < n <= length l /\ (dep (take n l) <= 0)%Z /\ forall j, 0 < j < n -> (0 < dep (take j l))%Z) as (n&Hn&Hdn&Hmin).
  { revert Hk Hd. induction (lt_wf k) as [k _ IH]. intros Hk Hd.
    destruct (decide (Exists (fun j => dep (take j l) <= 0)%Z (seq 1 (k - 1)))) as [He|He].
    - apply Exists_exists in He as (j&Hj&Hdj). apply elem_of_list_In, in_seq in Hj. apply (IH j); [lia|lia|done].
    - exists k. split; [done|]. split; [done|]. intros j Hj. apply Z.nle_gt. intros Hle. apply He.
      apply Exists_exists. exists j. split; [|done]. apply elem_of_list_In, in_seq. lia. }
  exists (take n l), (drop n l). split; [by rewrite take_drop|].
  split; [|split].
  - destruct l; [done|]. destruct n; [lia|]. done.
  - destruct n as [|n]; [lia|]. destruct (lookup_lt_is_Some_2 l n) as [x Hx]; [lia|].
    rewrite (take_S_r l n x Hx), depth_app, depth_single in *. destruct n as [|n].
    + destruct l as [|y l]; [done|]. injection Hh as ->. injection Hx as <-. simpl in *. lia.
    + specialize (Hmin (S n) ltac:(lia)). repeat case_decide; lia.
  - intros j Hj. rewrite take_length in Hj. rewrite take_take. rewrite Nat.min_l by lia. apply Hmin. lia.
Qed.

Lemma all_closed_iff l : all_closed l <-> forall pre post, l = pre ++ lp :: post ->
  exists k, 0 < k <= S (length post) /\ (dep (take k (lp :: post)) <= 0)%Z.
Proof.
  split; intros H pre post E.
  - destruct (H pre post E) as (g&rest&E2&Hg). exists (length g). rewrite E2, take_app.
    pose proof (group_len g Hg). apply (f_equal length) in E2. rewrite app_length in E2. simpl in E2.
    destruct Hg as (_&->&_). split; [|done]. lia.
  - destruct (H pre post E) as (k&Hk&Hd). by apply (closes _ k).
Qed.

Lemma all_closed_uncast l l' : uncast l l' -> all_closed l -> all_closed l'.
Proof.
  intros (pre&g&d&post&->&Hg&Hd&->) H. rewrite all_closed_iff in H. apply all_closed_iff.
  intros a b E. destruct (decide (length a < length pre)) as [Hlt|Hge].
  - (* the bracket is in front of the group *)
    assert (exists c, pre = a ++ lp :: c /\ b = c ++ d :: post) as (c&->&->).
    { exists (drop (S (length a)) pre).
      assert (pre = a ++ lp :: drop (S (length a)) pre) as Ep.
      { rewrite <- (take_drop_middle pre (length a) lp) at 1.
        - f_equal. apply (f_equal (take (length a))) in E. rewrite take_app, take_app_le in E by lia. done.
        - apply (f_equal (.!! length a)) in E. rewrite lookup_app_l in E by lia. rewrite E. by apply list_lookup_middle. }
      split; [done|]. rewrite Ep in E. rewrite <- app_assoc in E. simplify_list_eq. done. }
    destruct (H a (c ++ g ++ d :: post)) as (k&Hk&Hdk); [by rewrite <- app_assoc|].
    change (lp :: c ++ g ++ d :: post) with ((lp :: c) ++ g ++ d :: post) in Hdk.
    change (lp :: c ++ d :: post) with ((lp :: c) ++ d :: post).
    set (x := lp :: c) in *.
    assert (length x = S (length c)) as Hx by done.
    rewrite app_length in *. rewrite app_length in Hk. cbn [List.length] in *.
    destruct (decide (k <= length x)) as [H1|H1]; [|destruct (decide (k <= length x + length g)) as [H2|H2]].
    + exists k. split; [lia|]. rewrite take_app_le in * by lia. done.
    + exists (length x). split; [lia|]. rewrite take_app.
      replace k with (length x + (k - length x)) in Hdk by lia. rewrite take_add_app in Hdk by done.
      rewrite take_app_le in Hdk by lia. rewrite depth_app in Hdk.
      pose proof (group_prefix_nonneg (take (k - length x) g) (drop (k - length x) g)) as Hnn.
      rewrite take_drop in Hnn. specialize (Hnn Hg). lia.
    + exists (k - length g). split; [lia|].
      replace k with (length x + (length g + (k - length x - length g))) in Hdk by lia.
      rewrite take_add_app in Hdk by done. rewrite take_add_app in Hdk by done. rewrite !depth_app in Hdk.
      replace (k - length g) with (length x + (k - length x - length g)) by lia.
      rewrite take_add_app by done. rewrite depth_app. destruct Hg as (_&Hg&_). rewrite Hg in Hdk. lia.
  - (* behind *)
    destruct (decide (length a = length pre)) as [He|Hne].
    { apply app_inj_1 in E as [_ E]; [|done]. injection E as -> _. by apply digit_not_paren in Hd as [? _]. }
    assert (exists c, a = (pre ++ [d]) ++ c) as (c&->).
    { exists (drop (S (length pre)) a). change (d :: post) with ([d] ++ post) in E. rewrite app_assoc in E.
      apply (f_equal (take (S (length pre)))) in E.
      rewrite (take_app_le a) in E by lia. rewrite take_app_alt in E by (rewrite app_length; simpl; lia).
      rewrite E. by rewrite take_drop. }
    rewrite <- !app_assoc in E. simplify_list_eq.
    apply (H (pre ++ g ++ d :: c) b). by simplify_list_eq.
Qed.

(** Either the bracket is closed or nothing is. *)
Lemma closed_or_not l : head l = Some lp ->
  (exists g rest, l = g ++ rest /\ group g) \/ forall k, 0 < k <= length l -> (0 < dep (take k l))%Z.
Proof.
  intros Hh. destruct (decide (Exists (fun j => dep (take j l) <= 0)%Z (seq 1 (length l)))) as [He|He].
  - left. apply Exists_exists in He as (j&Hj&Hdj). apply elem_of_list_In, in_seq in Hj.
    apply (closes l j); [done|lia|done].
  - right. intros j Hj. apply Z.nle_gt. intros Hle. apply He.
    apply Exists_exists. exists j. split; [|done]. apply elem_of_list_In, in_seq. lia.
Qed.

(** ** The first pass *)

Lemma matched_at t g post pos : lp ∉ drop pos t -> pos <= length t -> group g ->
  find_matched_delimiters (t ++ g ++ post) "(" ")" pos = Some (length t, length t + length g).
Proof.
  intros Ht Hpos Hg. pose proof (matched_spec (t ++ g ++ post) "(" ")" pos) as H.
  destruct (group_head g Hg) as (g'&Eg&_).
  assert ((t ++ g ++ post) !! length t = Some lp) as Hl.
  { subst g. by apply (list_lookup_middle t (g' ++ post) lp (length t)). }
  pose proof (group_len g Hg) as Hlen.
  destruct (find_matched_delimiters (t ++ g ++ post) "(" ")" pos) as [[p e]|].
  - destruct H as (H1&H2&H3&H4).
    assert (p = length t) as ->.
    { destruct (decide (p < length t)).
      - exfalso. rewrite lookup_app_l in H2 by lia. apply Ht, elem_of_list_lookup. exists (p - pos).
        rewrite lookup_drop. by replace (pos + (p - pos)) with p by lia.
      - destruct (decide (length t < p)); [|lia]. exfalso. by apply (H3 (length t)). }
    assert (forall j, dep (drop (length t) (take (length t + j) (t ++ g ++ post))) = dep (take j (g ++ post))) as Hj.
    { intros j. rewrite take_add_app by done. by rewrite drop_app. }
    rewrite !app_length in H4. destruct H4 as [(->&H4)|(H4&_&H5&H6)].
    + exfalso. specialize (H4 (length t + length g) ltac:(lia)). rewrite Hj, take_app in H4.
      destruct Hg as (_&Hg&_). lia.
    + f_equal. f_equal. destruct (decide (length t + length g < e)) as [Hlt|].
      * exfalso. specialize (H6 (length t + length g) ltac:(lia)). rewrite Hj, take_app in H6.
        destruct Hg as (_&Hg&_). lia.
      * destruct (decide (e < length t + length g)); [|lia]. exfalso.
        replace e with (length t + (e - length t)) in H5 by lia. rewrite Hj in H5.
        rewrite take_app_le in H5 by lia. destruct Hg as (_&_&Hg). specialize (Hg (e - length t) ltac:(lia)). lia.
  - exfalso. by apply (H (length t)).
Qed.

Lemma matched_group l pos p e : find_matched_delimiters l "(" ")" pos = Some (p, e) -> p <> e ->
  exists pre g post, l = pre ++ g ++ post /\ group g /\ length pre = p /\ length pre + length g = e.
Proof.
  intros E Hne. pose proof (matched_spec l "(" ")" pos) as H. rewrite E in H. destruct H as (H1&H2&H3&H4).
  destruct H4 as [(->&_)|(H4&H5&H6&H7)]; [done|].
  exists (take p l), (drop p (take e l)), (drop e l).
  assert (length (take p l) = p) as Hp by (rewrite take_length; lia).
  assert (length (drop p (take e l)) = e - p) as He by (rewrite drop_length, take_length; lia).
  split; [|split; [|split]].
  - rewrite app_assoc. rewrite <- (take_drop e l) at 1. f_equal. rewrite <- (take_drop p (take e l)) at 1.
    f_equal. rewrite take_take. by rewrite Nat.min_l by lia.
  - split; [|split].
    + assert (drop p (take e l) !! 0 = Some lp) as Hx.
      { rewrite lookup_drop, Nat.add_0_r, lookup_take by lia. done. }
      destruct (drop p (take e l)); done.
    + done.
    + intros k Hk. rewrite He in Hk. specialize (H7 (p + k) ltac:(lia)).
      rewrite take_drop_commute, take_take, Nat.min_l by lia. done.
  - done.
  - lia.
Qed.

Lemma char_at_lt l i x : l !! i = Some x -> char_at l i = Ok x.
Proof.
  intros H. unfold char_at. rewrite decide_True by by apply lookup_lt_Some in H. by apply rget_ok.
Qed.

Lemma erase_group pre g post : erase (pre ++ g ++ post) (length pre) (length g) = pre ++ post.
Proof. unfold erase. by rewrite splice_app. Qed.

Lemma ascii7_uncast l l' : uncast l l' -> Forall ascii7 l -> Forall ascii7 l'.
Proof.
  intros (pre&g&d&post&->&_&_&->). rewrite !Forall_app. naive_solver.
Qed.

Lemma uncast_len l l' : uncast l l' -> length l' < length l.
Proof. intros (pre&g&d&post&->&Hg&_&->). apply group_len in Hg. rewrite !app_length. simpl. lia. Qed.

Lemma remove_enum_spec_ok sc name : Forall ascii7 name ->
  exists out, remove_enum_spec sc name = Ok out /\ rtc uncast name out.
Proof.
  unfold remove_enum_spec. intros H7.
  assert (forall fuel n pos, length n < fuel + pos -> 0 < fuel -> Forall ascii7 n ->
    exists out, remove_enum_spec_loop sc fuel n pos = Ok out /\ rtc uncast n out) as H.
  { clear. induction fuel as [|fuel IH]; intros n pos Hf Hp H7; [lia|]. cbn [remove_enum_spec_loop].
    destruct (find_matched_delimiters n "(" ")" pos) as [[op cl]|] eqn:E; [|exists n; split; [done|apply rtc_refl]].
    case_decide as Hc; [|exists n; split; [done|apply rtc_refl]]. destruct Hc as [Hc1 Hc2].
    pose proof (matched_bounds _ _ _ _ _ _ E) as HB.
    destruct (matched_group _ _ _ _ E Hc1) as (pre&g&post&->&Hg&<-&<-).
    destruct post as [|d post]. { rewrite app_nil_r, app_length in Hc2. lia. }
    rewrite (char_at_lt _ _ d).
    2: { rewrite app_assoc, <- app_length. by apply list_lookup_middle. }
    cbn [rbind]. rewrite isdigit_7.
    2: { rewrite !Forall_app, Forall_cons in H7. tauto. }
    cbn [rbind]. case_bool_decide as Hd; [|eexists; split; [done|apply rtc_refl]].
    replace (length pre + length g - length pre) with (length g) by lia. rewrite erase_group.
    assert (uncast (pre ++ g ++ d :: post) (pre ++ d :: post)) as Hu by (exists pre, g, d, post; done).
    destruct (IH (pre ++ d :: post) (length pre + length g)) as (out&Eo&Ho).
    - apply uncast_len in Hu. apply group_len in Hg. lia.
    - destruct fuel; [|lia]. exfalso. apply group_len in Hg. rewrite app_length in *. lia.
    - by apply (ascii7_uncast _ _ Hu).
    - exists out. split; [done|]. by apply (rtc_l _ _ (pre ++ d :: post)). }
  apply H; [lia|lia|done].
Qed.

(** ** The second pass *)

(** What is done when the brackets are closed. *)
Definition finish (sc : bool) (fuel : nat) (name : text) (op e : nat) : res text :=
  let? name' := (if decide (e < length name) then
                   let? c' := char_at name e in
                   let? d := isdigit sc c' in
                   Ok (if d : bool then erase name op (e - op) else name)
                 else Ok name) in
  match find_from name' [lp] e with
  | None => Ok name'
  | Some p => parens_loop sc fuel name' p p 0
  end.

Lemma parens_scan sc pre post g2 : forall g1 fuel, group (g1 ++ g2) -> g2 <> [] -> length g2 <= fuel ->
  parens_loop sc fuel (pre ++ (g1 ++ g2) ++ post) (length pre) (length pre + length g1) (Z.to_nat (dep g1)) =
  finish sc (fuel - length g2) (pre ++ (g1 ++ g2) ++ post) (length pre) (length pre + length (g1 ++ g2)).
Proof.
  induction g2 as [|x g2 IH]; intros g1 fuel Hg Hne Hf; [done|]. simpl in Hf.
  destruct fuel as [|fuel]; [lia|]. cbn [parens_loop].
  rewrite (char_at_lt _ _ x).
  2: { rewrite <- (app_assoc g1), app_assoc, <- app_length. simpl. by apply list_lookup_middle. }
  cbn [rbind]. cbv zeta.
  pose proof (group_prefix_nonneg g1 (x :: g2) Hg) as Hnn.
  assert ((if decide (x = lp) then S (Z.to_nat (dep g1)) else
           if decide (x = rp) then Nat.pred (Z.to_nat (dep g1)) else Z.to_nat (dep g1)) = Z.to_nat (dep (g1 ++ [x]))) as ->.
  { rewrite depth_app, depth_single. repeat case_decide; lia. }
  assert (g1 ++ x :: g2 = (g1 ++ [x]) ++ g2) as Eg by by rewrite <- app_assoc.
  destruct g2 as [|y g2].
  - destruct Hg as (_&Hg&_). rewrite Hg. rewrite decide_True by done.
    cbn [List.length]. replace (S fuel - 1) with fuel by lia.
    replace (S (length pre + length g1)) with (length pre + length (g1 ++ [x])) by (rewrite app_length; simpl; lia).
    done.
  - assert (0 < dep (g1 ++ [x]))%Z as Hp.
    { rewrite Eg in Hg. apply (group_prefix _ _ Hg); [by destruct g1|done]. }
    rewrite decide_False by lia.
    rewrite Eg in *. specialize (IH (g1 ++ [x]) fuel Hg ltac:(done) ltac:(simpl in *; lia)).
    rewrite (app_length g1 [x]) in IH. cbn [List.length] in IH.
    replace (length pre + (length g1 + 1)) with (S (length pre + length g1)) in IH by lia.
    rewrite IH. f_equal.
Qed.

Lemma parens_group sc pre g post fuel : group g -> length g <= fuel ->
  parens_loop sc fuel (pre ++ g ++ post) (length pre) (length pre) 0 =
  finish sc (fuel - length g) (pre ++ g ++ post) (length pre) (length pre + length g).
Proof.
  intros Hg Hf. pose proof (parens_scan sc pre post g [] fuel Hg) as H. cbn [app List.length] in H.
  rewrite Nat.add_0_r in H. apply H; [|done]. intros ->. apply group_len in Hg. simpl in Hg. lia.
Qed.

Lemma finish_group sc pre g post fuel : Forall ascii7 post ->
  finish sc fuel (pre ++ g ++ post) (length pre) (length pre + length g) =
  match find_from (pre ++ kept g post ++ post) [lp] (length pre + length g) with
  | None => Ok (pre ++ kept g post ++ post)
  | Some p => parens_loop sc fuel (pre ++ kept g post ++ post) p p 0
  end.
Proof.
  intros H7. unfold finish. destruct post as [|d post].
  - rewrite decide_False by (rewrite app_nil_r, app_length; lia). done.
  - rewrite decide_True by (rewrite !app_length; simpl; lia).
    rewrite (char_at_lt _ _ d).
    2: { rewrite app_assoc, <- app_length. by apply list_lookup_middle. }
    cbn [rbind]. apply Forall_cons in H7 as [H7 _]. rewrite isdigit_7 by done. cbn [rbind kept].
    replace (length pre + length g - length pre) with (length g) by lia. rewrite erase_group.
    case_bool_decide as Hd.
    + rewrite decide_True by done. done.
    + rewrite decide_False by done. done.
Qed.

(** An opening bracket which is not closed: the scan runs out of the text. *)
Lemma parens_unclosed sc pre l2 : forall l1 fuel, head (l1 ++ l2) = Some lp ->
  (forall k, 0 < k <= length (l1 ++ l2) -> (0 < dep (take k (l1 ++ l2)))%Z) -> 2 + length l2 <= fuel ->
  parens_loop sc fuel (pre ++ l1 ++ l2) (length pre) (length pre + length l1) (Z.to_nat (dep l1)) = UB.
Proof.
  induction l2 as [|x l2 IH]; intros l1 fuel Hh Hd Hf.
  - destruct fuel as [|[|fuel]]; [simpl in Hf; lia..|]. rewrite app_nil_r in *.
    assert (0 < length l1) as Hl by (destruct l1; [done|simpl; lia]).
    specialize (Hd (length l1) ltac:(lia)). rewrite firstn_all in Hd.
    cbn [parens_loop]. unfold char_at at 1. rewrite decide_False, decide_True by (rewrite app_length; lia).
    cbn [rbind]. cbv zeta. rewrite (decide_False (P := zero = lp)), (decide_False (P := zero = rp)) by done.
    rewrite decide_False by lia.
    unfold char_at at 1. rewrite !decide_False by (rewrite app_length; lia). done.
  - destruct fuel as [|fuel]; [lia|]. cbn [parens_loop].
    rewrite (char_at_lt _ _ x). 2: { rewrite app_assoc, <- app_length. by apply list_lookup_middle. }
    cbn [rbind]. cbv zeta.
    assert (l1 ++ x :: l2 = (l1 ++ [x]) ++ l2) as El by by rewrite <- app_assoc.
    assert (0 <= dep l1)%Z as Hnn.
    { destruct l1 as [|y l1]; [done|]. specialize (Hd (length (y :: l1))). rewrite take_app in Hd.
      rewrite app_length in Hd. simpl in Hd. assert (0 < dep (y :: l1))%Z; [apply Hd; lia|lia]. }
    assert ((if decide (x = lp) then S (Z.to_nat (dep l1)) else
           if decide (x = rp) then Nat.pred (Z.to_nat (dep l1)) else Z.to_nat (dep l1)) = Z.to_nat (dep (l1 ++ [x]))) as ->.
    { rewrite depth_app, depth_single. repeat case_decide; lia. }
    assert (0 < dep (l1 ++ [x]))%Z as Hp.
    { specialize (Hd (length (l1 ++ [x]))). rewrite El, take_app in Hd. apply Hd. rewrite !app_length. simpl. lia. }
    rewrite decide_False by lia. rewrite El in *. specialize (IH (l1 ++ [x]) fuel Hh Hd ltac:(simpl in *; lia)).
    rewrite (app_length l1 [x]) in IH. cbn [List.length] in IH.
    by replace (length pre + (length l1 + 1)) with (S (length pre + length l1)) in IH by lia.
Qed.

Lemma parens_not_closed sc pre l fuel : head l = Some lp ->
  (forall k, 0 < k <= length l -> (0 < dep (take k l))%Z) -> 2 + length l <= fuel ->
  parens_loop sc fuel (pre ++ l) (length pre) (length pre) 0 = UB.
Proof.
  intros H1 H2 H3. pose proof (parens_unclosed sc pre l [] fuel H1 H2 H3) as H. cbn [app List.length] in H.
  by rewrite Nat.add_0_r in H.
Qed.

Lemma lookup_split (l : text) p x : l !! p = Some x -> exists post, l = take p l ++ x :: post /\ length (take p l) = p.
Proof.
  intros H. exists (drop (S p) l). split; [by rewrite take_drop_middle|].
  apply lookup_lt_Some in H. rewrite take_length. lia.
Qed.

Lemma parens_loop_all sc : forall n name p fuel, length name - p < n -> name !! p = Some lp -> Forall ascii7 name ->
  length name + 2 <= fuel + p ->
  (forall out, parens_loop sc fuel name p p 0 = Ok out -> rtc uncast name out) /\
  (all_closed name -> exists out, parens_loop sc fuel name p p 0 = Ok out).
Proof.
  induction n as [|n IH]; intros name p fuel Hn Hp H7 Hf; [lia|].
  destruct (lookup_split _ _ _ Hp) as (post&E&Hlen). set (pre := take p name) in *. clearbody pre. subst name p. clear Hp.
  destruct (closed_or_not (lp :: post)) as [(g&rest&E&Hg)|Hun]; [done| |].
  - rewrite E in *. pose proof (group_len g Hg) as Hgl. rewrite !app_length in Hn, Hf.
    rewrite parens_group by (done || lia). rewrite finish_group by (rewrite !Forall_app in H7; tauto).
    assert (rtc uncast (pre ++ g ++ rest) (pre ++ kept g rest ++ rest)) as Hu.
    { destruct rest as [|d rest]; cbn [kept]; [apply rtc_refl|]. case_decide as Hd; [|apply rtc_refl].
      apply rtc_once. exists pre, g, d, rest. done. }
    assert (all_closed (pre ++ g ++ rest) -> all_closed (pre ++ kept g rest ++ rest)) as Hc.
    { intros Hc. destruct rest as [|d rest]; cbn [kept]; [done|]. case_decide as Hd; [|done].
      apply (all_closed_uncast (pre ++ g ++ d :: rest)); [|done]. exists pre, g, d, rest. done. }
    assert (Forall ascii7 (pre ++ kept g rest ++ rest)) as H7'.
    { rewrite !Forall_app in *. destruct H7 as (H1&H2&H3). split; [done|]. split; [|done].
      destruct rest as [|d rest]; cbn [kept]; [done|]. by case_decide. }
    assert (length (kept g rest) <= length g) as Hk.
    { destruct rest as [|d rest]; cbn [kept]; [done|]. case_decide; simpl; lia. }
    destruct (find_from (pre ++ kept g rest ++ rest) [lp] (length pre + length g)) as [q|] eqn:Eq.
    + pose proof (find_from_char_Some _ _ _ _ Eq) as (Hq1&Hq2&_).
      destruct (IH (pre ++ kept g rest ++ rest) q (fuel - length g)) as [I1 I2].
      * rewrite !app_length. lia.
      * done.
      * done.
      * rewrite !app_length. lia.
      * split.
        -- intros out Ho. apply (rtc_transitive _ (pre ++ kept g rest ++ rest)); [done|]. by apply I1.
        -- intros Hall. by apply I2, Hc.
    + split; [|eauto]. by intros out [= <-].
  - rewrite !app_length in Hf. rewrite parens_not_closed; [|done|done|cbn [List.length] in *; lia]. split; [done|].
    intros Hall. exfalso. destruct (Hall pre post eq_refl) as (g&rest&E&Hg).
    specialize (Hun (length g)). rewrite E, take_app in Hun. pose proof (group_len _ Hg). destruct Hg as (_&Hg&_).
    rewrite Hg in Hun. rewrite app_length in Hun. assert (0 < 0)%Z; [apply Hun; lia|lia].
Qed.

Lemma remove_casts_all sc name : Forall ascii7 name ->
  (forall out, remove_casts sc name = Ok out -> rtc uncast name out) /\
  (all_closed name -> exists out, remove_casts sc name = Ok out).
Proof.
  intros H7. unfold remove_casts. destruct (find_from name [lp] 0) as [p|] eqn:E.
  - apply find_from_char_Some in E as (_&E&_). apply (parens_loop_all sc (S (length name))); [lia|done|done|lia].
  - split; [|eauto]. intros out [= <-]. apply rtc_refl.
Qed.

Lemma rtc_closed l l' : rtc uncast l l' -> all_closed l -> all_closed l'.
Proof. induction 1 as [|x y z H _ IH]; [done|]. intros Hc. by apply IH, (all_closed_uncast x). Qed.

Lemma rtc_ascii7 l l' : rtc uncast l l' -> Forall ascii7 l -> Forall ascii7 l'.
Proof. induction 1 as [|x y z H _ IH]; [done|]. intros Hc. by apply IH, (ascii7_uncast x). Qed.

(** Both passes: only casts are removed, and no undefined behaviour if all brackets are closed. *)
Definition both (sc : bool) (name : text) : res text := let? name := remove_enum_spec sc name in remove_casts sc name.

Lemma both_all sc name : Forall ascii7 name ->
  (forall out, both sc name = Ok out -> rtc uncast name out) /\
  (all_closed name -> exists out, both sc name = Ok out).
Proof.
  intros H7. unfold both. destruct (remove_enum_spec_ok sc name H7) as (n1&->&Hr). cbn [rbind].
  pose proof (rtc_ascii7 _ _ Hr H7) as H71. destruct (remove_casts_all sc n1 H71) as [H1 H2]. split.
  - intros out Ho. apply (rtc_transitive _ n1); [done|]. by apply H1.
  - intros Hc. by apply H2, (rtc_closed name).
Qed.

Lemma both_unclosed sc pre l : Forall ascii7 pre -> lp ∉ pre -> head l = Some lp ->
  (forall k, 0 < k <= length l -> (0 < dep (take k l))%Z) -> both sc (pre ++ l) = UB.
Proof.
  intros H7 Hpre Hh Hd. unfold both, remove_enum_spec. cbn [remove_enum_spec_loop].
  destruct l as [|x l]; [done|]. injection Hh as ->.
  assert (find_from (pre ++ lp :: l) [lp] 0 = Some (length pre)) as E.
  { pose proof (find_from_app_Some [lp] [] pre l) as H. simpl in H. apply H. by apply first_at_char. }
  assert (find_matched_delimiters (pre ++ lp :: l) "(" ")" 0 = Some (length pre, length pre)) as ->.
  { destruct (find_matched_delimiters (pre ++ lp :: l) "(" ")" 0) as [[p e]|] eqn:Em.
    - destruct (decide (p = e)) as [->|Hne].
      + unfold find_matched_delimiters in Em. rewrite E in Em.
        destruct (match_loop _ _ _ _ _) as [e'|] eqn:E2; [|congruence]. injection Em as E3 E4.
        pose proof (match_loop_spec "(" ")" (drop (S (length pre)) (pre ++ lp :: l)) 1 (S (length pre)) ltac:(lia)) as HM. rewrite E2 in HM.
        destruct HM as (k&Hk&_). lia.
      + exfalso. pose proof (matched_group _ _ _ _ Em Hne) as (a&g&post&Ea&Hg&Hl1&Hl2).
        assert (p = length pre) as ->.
        { unfold find_matched_delimiters in Em. rewrite E in Em. destruct (match_loop _ _ _ _ _); congruence. }
        apply app_inj_1 in Ea as [-> Ea]; [|done]. specialize (Hd (length g)). rewrite Ea, take_app in Hd.
        pose proof (group_len _ Hg). destruct Hg as (_&Hg&_). rewrite Hg, app_length in Hd.
        assert (0 < 0)%Z; [apply Hd; lia|lia].
    - unfold find_matched_delimiters in Em. rewrite E in Em. by destruct (match_loop _ _ _ _ _). }
  rewrite decide_False by tauto. cbn [rbind]. unfold remove_casts. rewrite E.
  apply parens_not_closed; [done|done|]. rewrite app_length. lia.
Qed.
