(** Proofs about the selection of tests by files *)
From Coq Require Import Ascii String.
From stdpp Require Import list relations.
From Verif.Base Require Import Outcome ListLemmas.
From Verif.Text Require Import Model.
From Verif.Prune Require Import Model.
From Verif.Outputs Require Model.
From Verif.Select Require Import Model Spec.
Local Open Scope res_scope.
Local Notation "⌜ s ⌝" := (list_ascii_of_string s%string).
Local Notation length := List.length.

(** ** Normal paths *)
Lemma normal_names p : named p -> forall acc, fold_left normal_step p acc = acc ++ p.
Proof.
  induction 1 as [|x p Hx _ IH]; intros acc; cbn [fold_left]; [by rewrite app_nil_r|].
  unfold normal_step at 2. rewrite decide_False by (intros ->; apply Hx; apply elem_of_list_In; cbn; tauto).
  rewrite decide_False by (intros ->; apply Hx; apply elem_of_list_In; cbn; tauto). rewrite IH, <-app_assoc. done.
Qed.
Lemma normal_ups n : forall acc, Forall (fun x => x = up) acc -> fold_left normal_step (ups n) acc = acc ++ ups n.
Proof.
  induction n as [|n IH]; intros acc Ha; [by rewrite app_nil_r|]. change (ups (S n)) with (⌜".."⌝ :: ups n). cbn [fold_left].
  assert (normal_step acc ⌜".."⌝ = acc ++ [⌜".."⌝]) as ->.
  { unfold normal_step. rewrite decide_False by done. rewrite decide_True by done. destruct (last acc) as [y|] eqn:E; [|done].
    apply last_Some in E as [l ->]. apply Forall_app in Ha as [_ Ha]. apply Forall_cons in Ha as [-> _]. by rewrite decide_True. }
  rewrite IH; [by rewrite <-app_assoc|]. apply Forall_app. split; [done|]. by constructor.
Qed.
Lemma normal_relative n p : named p -> ups n ++ p <> [] -> normal (ups n ++ p) = ups n ++ p.
Proof.
  intros Hp Hne. unfold normal. assert (fold_left normal_step (ups n ++ p) [] = ups n ++ p) as ->; [|by destruct (ups n ++ p)].
  rewrite fold_left_app, normal_ups, app_nil_l by done. by apply normal_names.
Qed.
Lemma normal_absolute p : named p -> normal (absolute p) = absolute p.
Proof.
  intros Hp. unfold normal, absolute. cbn [fold_left]. assert (normal_step [] ⌜"/"⌝ = [⌜"/"⌝]) as -> by (by vm_compute).
  by rewrite (normal_names p Hp [⌜"/"⌝]).
Qed.

(** ** Common parts *)
Lemma strip_common_prefix p q : strip_common (p ++ q) p = q.
Proof. induction p as [|x p IH]; [by destruct q|]. cbn. by rewrite decide_True. Qed.
Lemma strip_common_all p q : strip_common p (p ++ q) = [].
Proof. induction p as [|x p IH]; [by destruct q|]. cbn. by rewrite decide_True. Qed.
Lemma strip_common_split p q : exists c, p = c ++ strip_common p q /\ q = c ++ strip_common q p.
Proof.
  revert q. induction p as [|x p IH]; intros [|y q]; cbn [strip_common]; try (exists []; done).
  destruct (decide (x = y)) as [->|Hne].
  - rewrite decide_True by done. destruct (IH q) as (c&H1&H2). exists (y :: c). cbn. by rewrite <-H1, <-H2.
  - rewrite decide_False by congruence. by exists [].
Qed.
Lemma relative_within repo r : r <> [] -> relative (repo ++ r) repo = r.
Proof.
  intros Hr. unfold relative. rewrite strip_common_prefix, strip_common_all. cbn. by destruct r.
Qed.
Lemma relative_names p repo r : r <> [] -> named r -> relative p repo = r -> p = repo ++ r.
Proof.
  intros Hr Hn E. unfold relative in E. destruct (strip_common_split p repo) as (c&H1&H2).
  destruct (strip_common repo p) as [|x l]; cbn [length replicate app] in E.
  - rewrite app_nil_r in H2. subst c. destruct (strip_common p repo) as [|y l]; [|by subst r].
    subst r. exfalso. apply Forall_cons in Hn as [Hn _]. apply Hn. apply elem_of_list_In. cbn. tauto.
  - subst r. exfalso. apply Forall_cons in Hn as [Hn _]. apply Hn. apply elem_of_list_In. cbn. tauto.
Qed.

Lemma from_last_none w dir : w ∉ dir -> from_last w dir = [].
Proof.
  induction dir as [|d dir IH]; intros H; [done|]. apply not_elem_of_cons in H as [H1 H2]. cbn. rewrite IH by done. by rewrite decide_False by congruence.
Qed.
Lemma from_last_part pre b q : b ∉ q -> from_last b (pre ++ b :: q) = b :: q.
Proof.
  intros H. induction pre as [|d pre IH]; cbn; [rewrite from_last_none by done; by rewrite decide_True|]. by rewrite IH.
Qed.
Lemma from_last_some w dir : from_last w dir = [] \/ exists pre q, dir = pre ++ w :: q /\ from_last w dir = w :: q /\ w ∉ q.
Proof.
  destruct (decide (w ∈ dir)) as [H|H]; [|left; by apply from_last_none]. right.
  apply elem_of_list_split_r in H as (pre&q&->&Hq). exists pre, q. split; [done|]. split; [by apply from_last_part|done].
Qed.

Lemma drop_up_ups n p : head p <> Some up -> drop_up (ups n ++ p) = p.
Proof. intros H. induction n; [destruct p as [|x p]; [done|]; cbn; rewrite decide_False; [done|]; intros ->; by apply H|]. exact IHn. Qed.
Lemma named_head p : named p -> head p <> Some up.
Proof. intros H E. destruct p as [|x p]; [done|]. injection E as ->. apply Forall_cons in H as [H _]. apply H. apply elem_of_list_In. cbn. tauto. Qed.
Lemma named_elem p x : named p -> x ∈ p -> x <> ⌜".."⌝ /\ x <> ⌜"."⌝ /\ x <> ⌜"/"⌝ /\ x <> [].
Proof.
  intros H Hx. unfold named in H; rewrite Forall_forall in H. apply H in Hx. repeat split; intros ->; apply Hx; apply elem_of_list_In; cbn; tauto.
Qed.

(** ** Rebasing *)
Definition stripped (repo s : path) : path := match s with w :: _ => strip_common s (from_last w (absolute repo)) | [] => [] end.

Lemma rebase_relative es repo n s : s <> [] -> named s -> rebase (Folder es) (ups n ++ s) (absolute repo) = Ok (stripped repo s).
Proof.
  intros Hs Hn. destruct s as [|w s]; [done|]. destruct (named_elem _ w Hn) as (H1&H2&H3&H4); [by left|].
  unfold rebase. destruct (ups n ++ w :: s) as [|x l] eqn:E; [by destruct n|]. rewrite <-E. unfold absolute.
  assert (Outputs.Model.is_absolute (ups n ++ w :: s) = false) as ->.
  { unfold Outputs.Model.is_absolute. apply bool_decide_eq_false. destruct n; cbn; intros Hh; injection Hh; [done|discriminate]. }
  cbn [andb]. unfold rebase_from. rewrite E, <-E. rewrite (drop_up_ups n (w :: s)) by (intros Hh; injection Hh; done). destruct w; done.
Qed.
Lemma rebase_absolute es repo p : rebase (Folder es) (absolute p) (absolute repo) = Ok (relative (absolute p) (absolute repo)).
Proof. done. Qed.
Lemma rebase_compiled es repo r f : named repo -> r <> [] -> named r -> compiled repo r f -> rebase (Folder es) f (absolute repo) = Ok r.
Proof.
  intros Hrepo Hr Hn [|n q (pre&b&q'&Erepo&->&Hb)].
  - change (absolute repo ++ r) with (absolute (repo ++ r)). rewrite rebase_absolute. change (absolute (repo ++ r)) with (absolute repo ++ r).
    by rewrite relative_within.
  - rewrite rebase_relative; [|done|].
    + unfold stripped. cbn [app]. rewrite Erepo. change (absolute (pre ++ b :: q')) with ((⌜"/"⌝ :: pre) ++ b :: q').
      rewrite from_last_part by done. f_equal. exact (strip_common_prefix (b :: q') r).
    + apply Forall_app. split; [|done]. rewrite Erepo in Hrepo. apply Forall_app in Hrepo. tauto.
Qed.

(** ** Searching *)
Lemma ends_suffix p s : ends p s = true <-> s `suffix_of` p.
Proof.
  unfold ends. rewrite andb_true_iff, !bool_decide_eq_true. split.
  - intros [H1 H2]. exists (take (length p - length s) p). rewrite <-(take_drop (length p - length s) p) at 1. by rewrite H2.
  - intros [k ->]. rewrite app_length. split; [lia|]. replace (length k + length s - length s) with (length k) by lia. by rewrite drop_app.
Qed.
Lemma find_first es s e : List.find (fun p => ends p s) es = Some e <-> first_ending es s e.
Proof.
  induction es as [|x es IH]; cbn [List.find].
  - split; [done|]. intros (l1&l2&E&_). by destruct l1.
  - destruct (ends x s) eqn:E.
    + split.
      * intros [= ->]. exists [], es. split; [done|]. split; [by apply ends_suffix|done].
      * intros (l1&l2&El&Hs&HF). destruct l1 as [|y l1]; injection El as -> ->; [done|]. apply Forall_cons in HF as [HF _]. by apply ends_suffix in E.
    + rewrite IH. split.
      * intros (l1&l2&->&Hs&HF). exists (x :: l1), l2. split; [done|]. split; [done|]. constructor; [|done]. intros H%ends_suffix. congruence.
      * intros (l1&l2&El&Hs&HF). destruct l1 as [|y l1]; injection El as -> ->; [apply ends_suffix in Hs; congruence|].
        exists l1, l2. split; [done|]. split; [done|]. by apply Forall_cons in HF as [_ HF].
Qed.
Lemma find_none es s : List.find (fun p => ends p s) es = None <-> Forall (fun e => ~ s `suffix_of` e) es.
Proof.
  induction es as [|x es IH]; cbn [List.find]; [done|]. rewrite Forall_cons, <-IH, <-ends_suffix. destruct (ends x s); [|intuition congruence].
  split; [done|]. intros [? _]. done.
Qed.

Theorem find_in_tree_first es s e : s <> [] -> Forall (fun e => e <> []) es -> e <> [] ->
  find_in_tree (Folder es) s = Ok e <-> first_ending es s e.
Proof.
  intros Hs Hes He. rewrite <-find_first. unfold find_in_tree. destruct s as [|x s]; [done|].
  destruct (List.find _ es) as [y|]; cbn; split; intros [= H]; subst; done.
Qed.
Theorem find_in_tree_none es s : s <> [] -> Forall (fun e => e <> []) es ->
  find_in_tree (Folder es) s = Ok [] <-> Forall (fun e => ~ s `suffix_of` e) es.
Proof.
  intros Hs Hes. rewrite <-find_none. unfold find_in_tree. destruct s as [|x s]; [done|].
  destruct (List.find _ es) as [y|] eqn:E; cbn; [|done]. split; [|done]. intros [= ->]. apply List.find_some in E as [Hi _].
  apply elem_of_list_In in Hi. rewrite Forall_forall in Hes. by apply Hes in Hi.
Qed.

(** ** Equivalence *)
Lemma last_ends {A} (p q : list A) : q <> [] -> last (p ++ q) = last q.
Proof. intros H. rewrite last_app. destruct (last q) eqn:E; [done|]. by apply last_None in E. Qed.

Lemma compiled_last repo r f : r <> [] -> compiled repo r f -> last f = last r.
Proof. intros Hr [|n q _]; [by apply last_ends|]. rewrite app_assoc. by apply last_ends. Qed.

Lemma equivalence_steps es repo sel f a r : named repo -> within repo es -> r <> [] -> named r -> compiled repo r f ->
  sel <> [] -> rebase (Folder es) sel (absolute repo) = Ok a -> (a = r -> last sel = last r) ->
  exists b, path_equivalence (Folder es) (absolute repo) sel f = Ok b /\ (b = true <-> a = r \/ first_ending es sel (absolute repo ++ r)).
Proof.
  intros Hrepo Hes Hr Hn Hc Hs Ha Hl. pose proof (rebase_compiled es repo r f Hrepo Hr Hn Hc) as Hf.
  unfold path_equivalence. destruct (last sel) as [x|] eqn:Ex; [|by apply last_None in Ex]. rewrite (compiled_last repo r f Hr Hc).
  destruct (last r) as [y|] eqn:Ey; [|by apply last_None in Ey].
  destruct (decide (x <> y)) as [Hxy|Hxy].
  { exists false. split; [done|]. split; [done|]. intros [->|(l1&l2&_&[k Hk]&_)]; [by injection (Hl eq_refl)|].
    exfalso. apply Hxy. assert (last (absolute repo ++ r) = last (k ++ sel)) as E by (by rewrite Hk). rewrite !last_ends, Ex, Ey in E by done. congruence. }
  destruct (decide (f = sel)) as [->|Hfs].
  { exists true. split; [done|]. split; [|done]. intros _. left. congruence. }
  change (match absolute repo with [] => ?u | _ :: _ => ?v end) with v. rewrite Ha, Hf. cbn [rbind].
  destruct (decide (a = r)) as [->|Har]; [exists true; split; [done|]; split; [by left|done]|].
  unfold find_in_tree. destruct sel as [|s0 sel]; [done|]. cbn [rbind]. set (s := s0 :: sel) in *.
  destruct (List.find _ es) as [e|] eqn:Ee; cbn [default from_option id].
  - pose proof (proj1 (find_first es s e) Ee) as Hfirst.
    apply List.find_some in Ee as [Hi _]. apply elem_of_list_In in Hi. pose proof Hes as Hes'. unfold within in Hes'. rewrite Forall_forall in Hes'.
    destruct (Hes' e Hi) as (r'&Hr'&Hn'&->). change (match absolute repo ++ r' with [] => ?u | _ :: _ => ?v end) with v.
    rewrite (rebase_compiled es repo r' _ Hrepo Hr' Hn' (compiled_absolute repo r')). cbn [rbind].
    exists (bool_decide (r' = r)). split; [done|]. rewrite bool_decide_eq_true. split.
    + intros ->. by right.
    + intros [?|H]; [done|]. apply find_first in Hfirst, H. rewrite Hfirst in H. injection H as H. by apply app_inv_head in H.
  - exists false. split; [done|]. split; [done|]. intros [?|H]; [done|]. apply find_first in H. congruence.
Qed.

Lemma suffix_named s p : s `suffix_of` p -> named p -> named s.
Proof. intros [k ->] H. apply Forall_app in H. tauto. Qed.

Lemma ups_suffix n s p : 0 < n -> named p -> ~ (ups n ++ s) `suffix_of` (absolute p).
Proof.
  intros Hn Hp [k Hk]. destruct n as [|n]; [lia|]. change (ups (S n)) with (⌜".."⌝ :: ups n) in Hk.
  assert (⌜".."⌝ ∈ absolute p) as H by (rewrite Hk; apply elem_of_app; right; by left).
  unfold absolute in H. apply elem_of_cons in H as [H|H]; [done|]. destruct (named_elem _ _ Hp H). done.
Qed.

(** A relative path *)
Lemma stripped_suffix repo s : stripped repo s `suffix_of` s.
Proof.
  destruct s as [|w s]; [by exists []|]. unfold stripped. destruct (strip_common_split (w :: s) (from_last w (absolute repo))) as (c&H&_). by exists c.
Qed.
Lemma stripped_last repo s r : r <> [] -> stripped repo s = r -> last s = last r.
Proof. intros Hr <-. destruct (stripped_suffix repo s) as [k E]. rewrite E at 1. by rewrite last_ends. Qed.

Lemma normal_compiled repo r f : named repo -> named r -> r <> [] -> compiled repo r f -> normal f = f.
Proof.
  intros Hrepo Hn Hr [|n q (pre&b&q'&E&->&_)].
  - change (absolute repo ++ r) with (absolute (repo ++ r)). apply normal_absolute. by apply Forall_app.
  - apply normal_relative; [|by destruct n]. apply Forall_app. split; [|done]. rewrite E in Hrepo. apply Forall_app in Hrepo. tauto.
Qed.

Theorem selects_relative es repo n s f r : named repo -> within repo es -> s <> [] -> named s -> r <> [] -> named r -> compiled repo r f ->
  exists b, selects (Folder es) (absolute repo) (ups n ++ s) f = Ok b /\
    (b = true <-> stripped repo s = r \/ (n = 0 /\ first_ending es s (absolute repo ++ r))).
Proof.
  intros Hrepo Hes Hs Hns Hr Hn Hc. unfold selects. rewrite (normal_compiled repo r f) by done.
  assert (ups n ++ s <> []) as Hne by (destruct n; [done|discriminate]). rewrite normal_relative by done.
  destruct (equivalence_steps es repo (ups n ++ s) f (stripped repo s) r) as (b&Hb&Hbt); try done.
  { by apply rebase_relative. }
  { intros E. rewrite last_ends by done. by apply (stripped_last repo s r). }
  exists b. split; [done|]. rewrite Hbt. destruct n as [|n]; [cbn [ups replicate app]; intuition|].
  split; intros [H|H]; [by left| |by left|destruct H; lia]. exfalso. destruct H as (l1&l2&_&Hsuf&_).
  change (absolute repo ++ r) with (absolute (repo ++ r)) in Hsuf. apply (ups_suffix (S n) s (repo ++ r)); [lia| |done]. by apply Forall_app.
Qed.

Lemma stripped_foreign repo w s : w ∉ absolute repo -> stripped repo (w :: s) = w :: s.
Proof. intros H. unfold stripped. by rewrite from_last_none. Qed.
Lemma stripped_through repo q r : last_part q repo -> stripped repo (q ++ r) = r.
Proof.
  intros (pre&b&q'&->&->&Hb). unfold stripped. cbn [app]. change (absolute (pre ++ b :: q')) with ((⌜"/"⌝ :: pre) ++ b :: q').
  rewrite from_last_part by done. exact (strip_common_prefix (b :: q') r).
Qed.

(** A path relative to a folder of the repository *)
Theorem selects_named es repo n w s f r : named repo -> within repo es -> named (w :: s) -> w ∉ repo -> r <> [] -> named r -> compiled repo r f ->
  exists b, selects (Folder es) (absolute repo) (ups n ++ w :: s) f = Ok b /\
    (b = true <-> w :: s = r \/ (n = 0 /\ first_ending es (w :: s) (absolute repo ++ r))).
Proof.
  intros Hrepo Hes Hn Hw Hr Hnr Hc. destruct (selects_relative es repo n (w :: s) f r) as (b&Hb&Hbt); try done.
  exists b. split; [done|]. rewrite Hbt, stripped_foreign; [done|]. unfold absolute. apply not_elem_of_cons. split; [|done].
  destruct (named_elem _ w Hn) as (_&_&H&_); [by left|done].
Qed.

(** A path which leads through the repository *)
Theorem selects_through es repo n q r' f r : named repo -> within repo es -> last_part q repo -> r' <> [] -> named r' -> r <> [] -> named r -> compiled repo r f ->
  exists b, selects (Folder es) (absolute repo) (ups n ++ q ++ r') f = Ok b /\
    (b = true <-> r' = r \/ (n = 0 /\ first_ending es (q ++ r') (absolute repo ++ r))).
Proof.
  intros Hrepo Hes Hq Hr' Hn' Hr Hn Hc. destruct (selects_relative es repo n (q ++ r') f r) as (b&Hb&Hbt); try done.
  - destruct q; [|done]. by destruct Hq as (?&?&?&_&?&_).
  - apply Forall_app. split; [|done]. destruct Hq as (pre&b&q'&E&->&_). rewrite E in Hrepo. apply Forall_app in Hrepo. tauto.
  - exists b. split; [done|]. by rewrite Hbt, stripped_through.
Qed.

(** Only one file has this name *)
Theorem selects_only es repo w s f r : named repo -> within repo es -> named (w :: s) -> w ∉ repo -> r <> [] -> named r -> compiled repo r f ->
  (forall e e', e ∈ es -> e' ∈ es -> (w :: s) `suffix_of` e -> (w :: s) `suffix_of` e' -> e = e') -> absolute repo ++ r ∈ es ->
  exists b, selects (Folder es) (absolute repo) (w :: s) f = Ok b /\ (b = true <-> (w :: s) `suffix_of` r).
Proof.
  intros Hrepo Hes Hn Hw Hr Hnr Hc Hu Hin. destruct (selects_named es repo 0 w s f r) as (b&Hb&Hbt); try done.
  exists b. split; [done|]. rewrite Hbt. split.
  - intros [<-|[_ (l1&l2&_&[k Hk]&_)]]; [by exists []|].
    destruct (decide (length (w :: s) <= length r)) as [Hlen|Hlen].
    + exists (drop (length (absolute repo)) k). assert (length (absolute repo) <= length k) as Hk'.
      { assert (length (absolute repo ++ r) = length (k ++ w :: s)) as E by (by rewrite Hk). rewrite !app_length in E. lia. }
      assert (drop (length (absolute repo)) (absolute repo ++ r) = drop (length (absolute repo)) (k ++ w :: s)) as E by (by rewrite Hk).
      rewrite drop_app in E. rewrite drop_app_le in E by done. done.
    + exfalso. assert (length k < length (absolute repo)) as Hk'.
      { assert (length (absolute repo ++ r) = length (k ++ w :: s)) as E by (by rewrite Hk). rewrite !app_length in E. lia. }
      assert ((absolute repo ++ r) !! length k = Some w) as E by (rewrite Hk; rewrite lookup_app_r by lia; by rewrite Nat.sub_diag).
      rewrite lookup_app_l in E by done. apply elem_of_list_lookup_2 in E. unfold absolute in E. apply elem_of_cons in E as [->|E]; [|done].
      destruct (named_elem _ ⌜"/"⌝ Hn) as (_&_&H&_); [by left|done].
  - intros Hsuf. right. split; [done|]. assert ((w :: s) `suffix_of` (absolute repo ++ r)) as Hs' by (by apply suffix_app_r).
    destruct (List.find (fun p => ends p (w :: s)) es) as [e|] eqn:E.
    + pose proof (proj1 (find_first es (w :: s) e) E) as Hf. assert (e = absolute repo ++ r) as ->; [|done].
      pose proof Hf as (l1&l2&El&He&_). apply Hu; [|done|done|done]. rewrite El. apply elem_of_app. right. by left.
    + apply find_none in E. rewrite Forall_forall in E. by apply E in Hin.
Qed.

(** What pruning selects is run *)
Theorem selects_pruned es repo f r w s : named repo -> within repo es -> r = w :: s -> named r -> w ∉ repo -> compiled repo r f ->
  selects (Folder es) (absolute repo) r f = Ok true.
Proof.
  intros Hrepo Hes -> Hn Hw Hc. destruct (selects_named es repo 0 w s f (w :: s)) as (b&Hb&Hbt); try done.
  destruct b; [done|]. assert (false = true) by (apply Hbt; by left). done.
Qed.

(** An absolute path *)
Theorem selects_absolute es repo p f r : named repo -> within repo es -> named p -> r <> [] -> named r -> compiled repo r f ->
  exists b, selects (Folder es) (absolute repo) (absolute p) f = Ok b /\ (b = true <-> p = repo ++ r).
Proof.
  intros Hrepo Hes Hp Hr Hn Hc. unfold selects. rewrite (normal_compiled repo r f) by done. rewrite normal_absolute by done.
  destruct (equivalence_steps es repo (absolute p) f (relative (absolute p) (absolute repo)) r) as (b&Hb&Hbt); try done.
  { intros E%relative_names; [|done|done]. rewrite E. by apply last_ends. }
  exists b. split; [done|]. rewrite Hbt. split.
  - intros [E%relative_names|(l1&l2&_&[k Hk]&_)]; [by injection E|done|done|].
    destruct k as [|x k]; [by injection Hk|]. exfalso. injection Hk as _ Hk.
    assert (⌜"/"⌝ ∈ repo ++ r) as H by (rewrite Hk; apply elem_of_app; right; by left).
    assert (named (repo ++ r)) as Hnn by (by apply Forall_app). destruct (named_elem _ _ Hnn H) as (_&_&?&_). done.
  - intros ->. left. change (absolute (repo ++ r)) with (absolute repo ++ r). by apply relative_within.
Qed.

(** Other ways to write a path *)
Lemma shorter_fold p p' : shorter p p' -> forall acc, fold_left normal_step p acc = fold_left normal_step p' acc.
Proof.
  intros [a b|a x b Hx] acc; rewrite !fold_left_app; cbn [fold_left]; [done|]. f_equal. generalize (fold_left normal_step a acc) as c. intros c.
  destruct (named_elem _ x Hx) as (H1&H2&H3&H4); [by left|]. unfold normal_step at 2. rewrite decide_False by done. rewrite decide_False by done.
  unfold normal_step. rewrite decide_False by done. rewrite decide_True by done. rewrite last_snoc, decide_False by done. rewrite decide_False by done.
  apply removelast_last.
Qed.
Lemma shorter_ne p p' : shorter p p' -> p <> [].
Proof. intros [a b|a x b _]; by destruct a. Qed.
Lemma shorter_normal p p' : rtc shorter p p' -> p' <> [] -> normal p = normal p'.
Proof.
  induction 1 as [|p q p' Hs H IH]; [done|]. intros Hne. rewrite <-(IH Hne). assert (q <> []) as Hq.
  { destruct H as [|? ? ? H _]; [done|]. by apply shorter_ne in H. }
  unfold normal. rewrite (shorter_fold p q Hs []). pose proof (shorter_ne p q Hs). by destruct p, q.
Qed.
Theorem selects_shorter t repo sel sel' f f' : rtc shorter sel sel' -> sel' <> [] -> rtc shorter f f' -> f' <> [] ->
  selects t repo sel f = selects t repo sel' f'.
Proof. intros H1 H2 H3 H4. unfold selects. by rewrite (shorter_normal sel sel'), (shorter_normal f f'). Qed.
