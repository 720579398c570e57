(** Headers come directly after their source files. *)
From Coq Require Import Ascii String Sorted.
From stdpp Require Import list list_numbers relations.
From Verif.Base Require Import Outcome Compare ListLemmas.
From Verif.Text Require Import Model.
From Verif.Failure Require Import Model Proofs.
From Verif.Prune Require Import Model Proofs.
From Verif.SoftUpdate Require Import Model.
From Verif.Depend Require Import Model Spec Proofs ProofsTop.
Local Notation length := List.length.

Definition by_name (i j : list text) : comparison := match text_compare (file_name i) (file_name j) with Eq => path_compare i j | c => c end.

Lemma sort_files l : map file (sort_by info_compare l) = sort_by by_name (map file l).
Proof.
  assert (Hins : forall x l, map file (insert_by info_compare x l) = insert_by by_name (file x) (map file l)).
  { intros x k. induction k as [|y k IH]; [done|]. cbn [insert_by map]. change (info_compare y x) with (by_name (file y) (file x)).
    destruct (by_name (file y) (file x)); [done| |done]. cbn [map]. by rewrite IH. }
  induction l as [|x l IH]; [done|]. cbn. rewrite Hins. by f_equal.
Qed.

Lemma nodes_sorted w prune ns : make_nodes w prune = Ok ns -> NoDup (listing w) ->
  StronglySorted (fun f g => by_name f g = Lt) (map file ns).
Proof.
  intros Hns Hd. pose proof (nodes_NoDup w prune ns Hns Hd) as Hnd. unfold make_nodes in Hns.
  destruct (add_files w prune (listing w)) as [l| | |]; try done. cbn [rbind] in Hns. injection Hns as <-.
  rewrite sort_files. apply (sort_by_strict info_compare_total).
  change (NoDup (map file (sort_by info_compare l))) in Hnd. rewrite sort_files in Hnd. by rewrite (sort_by_perm (cmp := by_name)) in Hnd.
Qed.

Lemma sorted_lookup {A} (R : A -> A -> Prop) l i j x y : StronglySorted R l -> l !! i = Some x -> l !! j = Some y -> i < j -> R x y.
Proof.
  intros Hs. revert i j. induction Hs as [|z l Hs IH HF]; intros i j Hi Hj Hlt; [done|].
  destruct j as [|j]; [lia|]. destruct i as [|i]; cbn in Hi, Hj.
  - injection Hi as <-. rewrite Forall_forall in HF. apply HF. by eapply elem_of_list_lookup_2.
  - apply (IH i j); [done|done|lia].
Qed.

Lemma between p a b x : text_compare (p ++ a) x <> Gt -> text_compare x (p ++ b) <> Gt -> exists r, x = p ++ r.
Proof.
  assert (H : total_cmp ascii_compare) by apply ascii_total.
  revert x. induction p as [|c p IH]; intros x H1 H2; [by exists x|]. destruct x as [|y x]; [done|]. cbn in H1, H2.
  destruct (ascii_compare c y) eqn:E.
  - apply (cmp_eq H) in E as ->. rewrite (cmp_refl H) in H2. destruct (IH x H1 H2) as [r ->]. by exists r.
  - exfalso. apply H2. rewrite (cmp_opp H c y), E. done.
  - done.
Qed.

Lemma last_dot_split n a b : last_dot n = Some (a, b) -> n = a ++ b.
Proof.
  revert a b. induction n as [|c n IH]; intros a b H; cbn [last_dot] in H; [done|].
  destruct (last_dot n) as [[a' b']|].
  - injection H as <- <-. cbn. f_equal. by apply IH.
  - destruct (decide (c = dot)); [|done]. by injection H as <- <-.
Qed.

Lemma stem_extension n : extension n <> [] -> n = stem n ++ extension n.
Proof.
  unfold stem, extension. destruct (last_dot n) as [[[|c a] b]|] eqn:E; [done| |done]. intros _. by apply last_dot_split.
Qed.

Lemma cpp_name f : is_cpp f = true -> exists r, file_name f = stem_of f ++ "."%char :: "c"%char :: r.
Proof.
  unfold is_cpp, stem_of. rewrite bool_decide_eq_true. intros H.
  assert (Hne : extension (file_name f) <> []).
  { intros E. rewrite E in H. cbn in H. rewrite !elem_of_cons, elem_of_nil in H. naive_solver. }
  pose proof (stem_extension (file_name f) Hne) as E. revert H. cbn [map list_ascii_of_string]. rewrite !elem_of_cons, elem_of_nil.
  intros [H|[H|[H|[]]]]; rewrite H in E; by eexists.
Qed.

Lemma header_name f : is_header f = true -> exists r, file_name f = stem_of f ++ "."%char :: "h"%char :: r.
Proof.
  unfold is_header, stem_of. rewrite bool_decide_eq_true. intros H.
  assert (Hne : extension (file_name f) <> []).
  { intros E. rewrite E in H. cbn in H. rewrite !elem_of_cons, elem_of_nil in H. naive_solver. }
  pose proof (stem_extension (file_name f) Hne) as E. revert H. cbn [map list_ascii_of_string]. rewrite !elem_of_cons, elem_of_nil.
  intros [H|[H|[H|[]]]]; rewrite H in E; by eexists.
Qed.

Lemma header_not_cpp f : is_header f = true -> is_cpp f = false.
Proof.
  unfold is_cpp, is_header. rewrite bool_decide_eq_true, bool_decide_eq_false. cbn [map list_ascii_of_string].
  rewrite !elem_of_cons, elem_of_nil. intros [-> |[-> |[-> |[]]]]; intros [?|[?|[?|[]]]]; done.
Qed.

Lemma code_name f : is_code f = true -> exists r, file_name f = stem_of f ++ "."%char :: r.
Proof.
  unfold is_code. intros [H|H]%orb_true_iff; [apply cpp_name in H as [r H]|apply header_name in H as [r H]]; by eexists.
Qed.

Lemma compare_app p a b : text_compare (p ++ a) (p ++ b) = text_compare a b.
Proof.
  assert (H : total_cmp ascii_compare) by apply ascii_total.
  induction p as [|c p IH]; [done|]. cbn. rewrite (cmp_refl H). exact IH.
Qed.

Lemma layout_paired w cutoff prune ns : make_nodes w prune = Ok ns -> NoDup (listing w) -> layout w cutoff ns -> paired w cutoff ns.
Proof.
  intros Hns Hd [Hnames Hone Hself]. pose proof (nodes_sorted w prune ns Hns Hd) as Hsorted.
  assert (Hstem : forall s h n m, own_header w cutoff ns s h -> ns !! s = Some n -> ns !! h = Some m -> stem_of (file m) = stem_of (file n)).
  { intros s h n m (n' & inc & Hn' & _ & (n2 & incs & m2 & _ & _ & _ & Hm2 & [Hf _] & _) & Hs) Hn Hm.
    unfold stem_of in *. rewrite Hn in Hn'. injection Hn' as <-. rewrite Hm in Hm2. injection Hm2 as <-. by rewrite Hf. }
  assert (Hhead : forall s h n m, own_header w cutoff ns s h -> ns !! s = Some n -> ns !! h = Some m -> is_header (file m) = true).
  { intros s h n m Ho Hn Hm. pose proof Ho as (n' & inc & Hn' & Hc & _). rewrite Hn in Hn'. injection Hn' as <-.
    destruct (code_name (file m)) as [r Hr].
    { apply (nodes_spec w prune ns m Hns). by eapply elem_of_list_lookup_2. }
    rewrite (Hstem s h n m Ho Hn Hm) in Hr. destruct (Hnames s h n m r Hn Hc Hm Hr) as [-> |[? _]]; [|done]. by apply Hself in Ho. }
  split.
  - intros s h Ho. pose proof Ho as (n & inc & Hn & Hc & (n2 & incs & m & _ & _ & _ & Hm & _) & _).
    pose proof (Hhead s h n m Ho Hn Hm) as Hh. pose proof (Hstem s h n m Ho Hn Hm) as Hst.
    destruct (cpp_name (file n) Hc) as [r1 Hr1]. destruct (header_name (file m) Hh) as [r2 Hr2]. rewrite Hst in Hr2.
    assert (Hlt : by_name (file n) (file m) = Lt). { unfold by_name. rewrite Hr1, Hr2, compare_app. done. }
    assert (Hf : forall i k, ns !! i = Some k -> map file ns !! i = Some (file k)). { intros i k Hk. change (map file ns) with (file <$> ns). by rewrite list_lookup_fmap, Hk. }
    assert (Hlt' : s < h).
    { destruct (decide (s = h)) as [-> |Hne]; [by apply Hself in Ho|]. destruct (decide (s < h)); [done|].
      pose proof (sorted_lookup _ _ h s _ _ Hsorted (Hf _ _ Hm) (Hf _ _ Hn) ltac:(lia)) as Hgt.
      exfalso. by apply (cmp_asym info_compare_total (file n) (file m)). }
    destruct (decide (h = S s)) as [|Hne]; [done|exfalso].
    destruct (lookup_lt_is_Some_2 ns (S s)) as [k Hk]; [apply lookup_lt_Some in Hm; lia|].
    pose proof (sorted_lookup _ _ s (S s) _ _ Hsorted (Hf _ _ Hn) (Hf _ _ Hk) ltac:(lia)) as H1.
    pose proof (sorted_lookup _ _ (S s) h _ _ Hsorted (Hf _ _ Hk) (Hf _ _ Hm) ltac:(lia)) as H2.
    assert (Hbt : exists r, file_name (file k) = (stem_of (file n) ++ ["."%char]) ++ r).
    { apply (between _ ("c"%char :: r1) ("h"%char :: r2)).
      - rewrite <- app_assoc. cbn [app]. rewrite <- Hr1. intros E. unfold by_name in H1. by rewrite E in H1.
      - rewrite <- app_assoc. cbn [app]. rewrite <- Hr2. intros E. unfold by_name in H2. by rewrite E in H2. }
    destruct Hbt as [r Hr]. rewrite <- app_assoc in Hr. cbn [app] in Hr.
    destruct (Hnames s (S s) n k r Hn Hc Hk Hr) as [E|[_ Ho']]; [lia|]. apply Hne. by eapply Hone.
  - intros s h m Ho Hm. pose proof Ho as (n & inc & Hn & _). apply header_not_cpp. by apply (Hhead s h n m).
  - intros s n m Hn Hm Hc Hs. destruct (code_name (file m)) as [r Hr].
    { apply (nodes_spec w prune ns m Hns). by eapply elem_of_list_lookup_2. }
    rewrite Hs in Hr. destruct (Hnames s (S s) n m r Hn Hc Hm Hr) as [E|[_ ?]]; [lia|done].
Qed.
