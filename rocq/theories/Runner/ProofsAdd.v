(** Proofs about the addition of suites (C113). *)
From Coq Require Import Ascii String.
From stdpp Require Import list sorting.
From Verif.Base Require Import Outcome Compare.
From Verif.Text Require Import Model.
From Verif.Graph Require Import Model ModelWeighted ModelTree.
From Verif.Suite Require Import Model Spec.
From Verif.Prune Require Model Proofs.
From Verif.Runner Require Import Model ModelSuites Spec ProofsSuites ModelAdd SpecAdd.
Local Notation length := List.length.
Local Notation slash := ("/"%char).

(** *** Paths *)
Definition nonempty (w : text) : bool := match w with [] => false | _ => true end.

Lemma to_path_slashes n s : Prune.Model.to_path (slashes n ++ s) = Prune.Model.to_path s.
Proof. induction n as [|n IH]; [done|]. exact IH. Qed.

Lemma plain_forall x : plain x -> Forall (fun c => c <> Prune.Model.slash) x.
Proof. intros [_ H]. apply Forall_forall. intros c Hc ->. by apply H. Qed.

Lemma to_path_name x s : plain x -> Prune.Model.to_path (x ++ slash :: s) = x :: Prune.Model.to_path s.
Proof.
  intros H. unfold Prune.Model.to_path. change (slash :: s) with (Prune.Model.slash :: s).
  rewrite (Prune.Proofs.split_slash_app x s (plain_forall x H)).
  destruct H as [H _]. by destruct x.
Qed.

Lemma to_path_last x : plain x -> Prune.Model.to_path x = [x].
Proof.
  intros H. unfold Prune.Model.to_path. rewrite (Prune.Proofs.split_slash_no x (plain_forall x H)).
  destruct H as [H _]. by destruct x.
Qed.

Lemma last_app_ne {A} (l k : list A) : k <> [] -> last (l ++ k) = last k.
Proof. intros H. destruct k as [|x k] using rev_ind; [done|]. by rewrite app_assoc, !last_snoc. Qed.

Lemma last_slashes n : last (slashes (S n)) = Some slash.
Proof. induction n as [|n IH]; [done|]. exact IH. Qed.

Lemma last_plain x : plain x -> last x <> Some slash.
Proof. intros [_ H] E. apply last_Some_elem_of in E. done. Qed.

Definition rel (s : text) : list text :=
   match Prune.Model.to_path s with
   | [] => []
   | p => p ++ (if decide (last s = Some Prune.Model.slash) then [[]] else [])
   end.

Lemma spells_nil p : spells p [] -> p = [].
Proof.
  inversion 1 as [|x [Hx _]|x n [Hx _] E1 E2|x n q s [Hx _] Hs Hq E1 E2]; subst; try done; destruct x; done.
Qed.

Lemma spells_rel p s : spells p s -> rel s = p /\ head s <> Some slash /\ (p <> [] -> s <> [] /\ Prune.Model.to_path s <> []).
Proof.
  induction 1 as [|x Hx|x n Hx|x n p s Hx Hs IH Hp].
  - done.
  - unfold rel. rewrite (to_path_last x Hx), decide_False by by apply last_plain. split; [done|].
    destruct Hx as [Hx Hx']. destruct x as [|c x]; [done|]. split; [|done]. cbn. intros [= ->]. apply Hx'. left.
  - assert (Et : Prune.Model.to_path (x ++ slashes (S n)) = [x]).
    { change (slashes (S n)) with (slash :: slashes n). rewrite (to_path_name x (slashes n) Hx). f_equal.
      rewrite <- (app_nil_r (slashes n)). apply (to_path_slashes n []). }
    unfold rel. rewrite Et, last_app_ne by done. rewrite last_slashes, decide_True by done. split; [done|].
    destruct Hx as [Hx Hx']. destruct x as [|c x]; [done|]. split; [cbn; intros [= ->]; apply Hx'; left|]. intros _. split; done.
  - destruct (IH) as (H1 & H2 & H3). destruct (H3 Hp) as [H4 H5].
    assert (Et : Prune.Model.to_path (x ++ slashes (S n) ++ s) = x :: Prune.Model.to_path s).
    { change (slashes (S n) ++ s) with (slash :: (slashes n ++ s)). rewrite (to_path_name x _ Hx). by rewrite to_path_slashes. }
    unfold rel. rewrite Et. rewrite app_assoc, last_app_ne by done. split.
    + rewrite <- H1. unfold rel. by destruct (Prune.Model.to_path s).
    + destruct Hx as [Hx Hx']. destruct x as [|c x]; [done|]. split; [cbn; intros [= ->]; apply Hx'; left|]. intros _. split; done.
Qed.

Lemma denotes_key a p t : denotes a p t -> path_key t = (a, p).
Proof.
  intros (n & s & -> & Hs & Ha). destruct (spells_rel p s Hs) as (H1 & H2 & H3). unfold path_key. f_equal.
  - destruct n as [|n]; cbn.
    + rewrite bool_decide_eq_false_2 by done. destruct a; [|done]. destruct Ha as [Ha _]. specialize (Ha eq_refl). lia.
    + rewrite bool_decide_eq_true_2 by done. symmetry. apply Ha. lia.
  - rewrite to_path_slashes. destruct s as [|c s].
    + apply spells_nil in Hs. by subst.
    + rewrite last_app_ne by done. exact H1.
Qed.

Lemma spells_cons c p s : c <> slash -> spells p s -> exists p', p' <> [] /\ spells p' (c :: s).
Proof.
  intros Hc. assert (Hpl : forall x, plain x -> plain (c :: x)).
  { intros x [_ Hx]. split; [done|]. rewrite elem_of_cons. intros [E|H]; [by apply Hc|done]. }
  intros [|x Hx|x n Hx|x n q s' Hx Hs Hq].
  - exists [[c]]. split; [done|]. apply spells_last. split; [done|]. rewrite elem_of_list_singleton. congruence.
  - exists [c :: x]. split; [done|]. apply spells_last. by apply Hpl.
  - exists [c :: x; []]. split; [done|]. apply (spells_folder (c :: x) n). by apply Hpl.
  - exists ((c :: x) :: q). split; [done|]. apply (spells_more (c :: x) n q s'); [by apply Hpl|done|done].
Qed.

Lemma denotes_some t : exists a p, denotes a p t.
Proof.
  assert (H : exists n s p, t = slashes n ++ s /\ spells p s).
  { induction t as [|c t (n & s & p & -> & Hs)]; [exists 0, [], []; split; [done|constructor]|].
    destruct (decide (c = slash)) as [->|Hc]; [exists (S n), s, p; done|].
    destruct n as [|n].
    - destruct (spells_cons c p s Hc Hs) as (p' & _ & H). exists 0, (c :: s), p'. done.
    - assert (Hpl : plain [c]) by (split; [done|]; rewrite elem_of_list_singleton; congruence).
      destruct p as [|x p].
      + exists 0, (c :: slashes (S n) ++ s), [[c]; []]. split; [done|]. inversion Hs; subst. rewrite app_nil_r.
        apply (spells_folder [c] n). done.
      + exists 0, (c :: slashes (S n) ++ s), ([c] :: x :: p). split; [done|]. apply (spells_more [c] n (x :: p) s); done. }
  destruct H as (n & s & p & -> & Hs). exists (bool_decide (0 < n)), p, n, s. rewrite bool_decide_eq_true. done.
Qed.

Lemma denotes_exactly t : exists a p, denotes a p t /\ forall b q, denotes b q t -> b = a /\ q = p.
Proof.
  destruct (denotes_some t) as (a & p & H). exists a, p. split; [done|]. intros b q Hq.
  apply denotes_key in H. apply denotes_key in Hq. rewrite H in Hq. by injection Hq as -> ->.
Qed.

Definition element_of (t : test) : element := (t_name t, path_key (t_source t)).

Lemma same_iff t u : same t u <-> element_of t = element_of u.
Proof.
  unfold same, element_of. split.
  - intros [-> (a & p & H1 & H2)]. apply denotes_key in H1 as ->. by apply denotes_key in H2 as ->.
  - intros E. assert (E1 : t_name t = t_name u) by exact (f_equal fst E).
    assert (E2 : path_key (t_source t) = path_key (t_source u)) by exact (f_equal snd E).
    split; [done|]. destruct (denotes_some (t_source t)) as (a & p & H1), (denotes_some (t_source u)) as (b & q & H2).
    exists a, p. split; [done|]. apply denotes_key in H1 as H1'. rewrite H1', (denotes_key b q _ H2) in E2. by injection E2 as -> ->.
Qed.

(** *** The set *)
Lemma bool_total : total_cmp bool_compare.
Proof. split; [intros [] []; cbn; done|intros [] []; done|intros [] [] []; done]. Qed.

Lemma element_total : total_cmp element_compare.
Proof. apply pair_total; [apply text_total|]. apply pair_total; [apply bool_total|]. apply list_total, text_total. Qed.

Lemma emplace_spec x l : StronglySorted (lt_by (cmp := element_compare)) l ->
  match emplace x l with
  | Some r => x ∉ l /\ r ≡ₚ x :: l /\ StronglySorted (lt_by (cmp := element_compare)) r
  | None => x ∈ l
  end.
Proof.
  induction 1 as [|y l Hs IH HF]; cbn [emplace].
  { split; [apply not_elem_of_nil|]. split; [done|]. repeat constructor. }
  destruct (element_compare y x) eqn:E.
  - apply (cmp_eq element_total) in E as ->. left.
  - destruct (emplace x l) as [r|].
    + destruct IH as (H1 & H2 & H3). split; [|split].
      * rewrite elem_of_cons. intros [->|H]; [|done]. by rewrite (cmp_refl element_total) in E.
      * rewrite H2. constructor.
      * constructor; [done|]. rewrite H2. by constructor.
    + by right.
  - apply (cmp_gt element_total) in E. rewrite Forall_forall in HF. assert (Hall : forall z, z ∈ y :: l -> element_compare x z = Lt).
    { intros z. rewrite elem_of_cons. intros [->|Hz]; [done|]. eapply (cmp_trans element_total); [exact E|by apply HF]. }
    split; [|split; [done|]].
    + intros Hx. apply Hall in Hx. by rewrite (cmp_refl element_total) in Hx.
    + constructor; [constructor; [done|by apply Forall_forall]|]. apply Forall_forall. exact Hall.
Qed.

(** *** The check *)
Lemma distinct_iff l : distinct l <-> NoDup (map element_of l).
Proof.
  rewrite NoDup_alt. unfold distinct. split.
  - intros H i j x Hi Hj. rewrite list_lookup_fmap in Hi, Hj. apply fmap_Some in Hi as (t & Hi & ->). apply fmap_Some in Hj as (u & Hj & E).
    destruct (decide (i = j)) as [|Hne]; [done|]. destruct (decide (i < j)).
    + exfalso. eapply (H i j t u); [done|done|done|]. by apply same_iff.
    + exfalso. eapply (H j i u t); [lia|done|done|]. by apply same_iff.
  - intros H i j t u Hij Hi Hj E. apply same_iff in E.
    assert (i = j); [|lia]. apply (H i j (element_of t)); rewrite list_lookup_fmap; [by rewrite Hi|by rewrite Hj, E].
Qed.

Lemma check_go_spec n tests : forall seen, StronglySorted (lt_by (cmp := element_compare)) seen ->
  match check_go n tests seen with
  | None => NoDup (map element_of tests) /\ forall t, t ∈ tests -> element_of t ∉ seen
  | Some msg => exists l1 t l2, tests = l1 ++ t :: l2 /\ NoDup (map element_of l1) /\ (forall u, u ∈ l1 -> element_of u ∉ seen)
      /\ (element_of t ∈ seen \/ element_of t ∈ map element_of l1) /\ msg = duplication_message n t
  end.
Proof.
  induction tests as [|t tests IH]; intros seen Hs; cbn [check_go].
  { split; [constructor|]. intros t. by rewrite elem_of_nil. }
  fold (element_of t). pose proof (emplace_spec (element_of t) seen Hs) as He. destruct (emplace (element_of t) seen) as [r|].
  - destruct He as (H1 & H2 & H3). specialize (IH r H3). destruct (check_go n tests r) as [msg|].
    + destruct IH as (l1 & u & l2 & -> & Hd & Hn & Hu & ->). exists (t :: l1), u, l2. split; [done|]. split; [|split; [|split; [|done]]].
      * cbn [map]. constructor; [|done]. intros Hin. apply elem_of_list_fmap in Hin as (v & Ev & Hv).
        apply (Hn v Hv). rewrite H2, <- Ev. left.
      * intros v. rewrite elem_of_cons. intros [->|Hv]; [done|]. intros Hin. apply (Hn v Hv). rewrite H2. by right.
      * cbn [map]. rewrite H2 in Hu. rewrite !elem_of_cons in *. tauto.
    + destruct IH as [Hd Hn]. split.
      * cbn [map]. constructor; [|done]. intros Hin. apply elem_of_list_fmap in Hin as (v & Ev & Hv).
        apply (Hn v Hv). rewrite H2, <- Ev. left.
      * intros v. rewrite elem_of_cons. intros [->|Hv]; [done|]. intros Hin. apply (Hn v Hv). rewrite H2. by right.
  - exists [], t, tests. split; [done|]. split; [constructor|]. split; [intros u; by rewrite elem_of_nil|]. split; [by left|done].
Qed.

Lemma check_accepts n tests : check_for_duplicates n tests = None <-> distinct tests.
Proof.
  unfold check_for_duplicates. pose proof (check_go_spec n tests [] (SSorted_nil _)) as H. rewrite distinct_iff.
  destruct (check_go n tests []) as [msg|]; [|by destruct H].
  split; [done|]. intros Hd. exfalso. destruct H as (l1 & t & l2 & -> & _ & _ & [H|H] & _); [by apply elem_of_nil in H|].
  rewrite map_app in Hd. apply NoDup_app in Hd as (_ & Hd & _). apply (Hd _ H). cbn [map]. left.
Qed.

Lemma first_duplicate_unique l t u : first_duplicate l t -> first_duplicate l u -> t = u.
Proof.
  intros (l1 & v & l2 & -> & Hd1 & Hv & Hs) (k1 & w & k2 & E & Hd2 & Hw & Hs').
  assert (Hno : forall (a : list test) x b y c, a = b ++ y :: c -> x ∈ b -> same x y -> ~ distinct a).
  { intros a x b y c -> Hx Hxy Hd. apply elem_of_list_lookup in Hx as [i Hi]. apply (Hd i (length b) x y); [by apply lookup_lt_Some in Hi| | |done].
    - by rewrite lookup_app_l by by apply lookup_lt_Some in Hi.
    - by rewrite list_lookup_middle. }
  destruct (decide (length l1 < length k1)) as [Hl|Hl].
  { exfalso. assert (Hk : k1 = l1 ++ t :: take (length k1 - length l1 - 1) l2).
    { assert (E1 : take (length k1) (l1 ++ t :: l2) = k1) by (rewrite E; by rewrite take_app).
      rewrite take_app_ge in E1 by lia. rewrite <- E1 at 1. f_equal.
      replace (length k1 - length l1) with (S (length k1 - length l1 - 1)) at 1 by lia. done. }
    by apply (Hno k1 v l1 t _ Hk). }
  destruct (decide (length k1 < length l1)) as [Hl'|Hl'].
  { exfalso. assert (Hk : l1 = k1 ++ u :: take (length l1 - length k1 - 1) k2).
    { assert (E1 : take (length l1) (k1 ++ u :: k2) = l1) by (rewrite <- E; by rewrite take_app).
      rewrite take_app_ge in E1 by lia. rewrite <- E1 at 1. f_equal.
      replace (length l1 - length k1) with (S (length l1 - length k1 - 1)) at 1 by lia. done. }
    by apply (Hno l1 w k1 u _ Hk). }
  apply app_inj_1 in E as [_ E]; [|lia]. by injection E.
Qed.

Lemma check_refuses n tests msg : check_for_duplicates n tests = Some msg <->
  exists t, first_duplicate tests t /\ msg = duplication_message n t.
Proof.
  assert (H : forall m, check_for_duplicates n tests = Some m -> exists t, first_duplicate tests t /\ m = duplication_message n t).
  { intros m E. unfold check_for_duplicates in E. pose proof (check_go_spec n tests [] (SSorted_nil _)) as H. rewrite E in H.
    destruct H as (l1 & t & l2 & -> & Hd & _ & [H|H] & ->); [by apply elem_of_nil in H|].
    apply elem_of_list_fmap in H as (u & Eu & Hu). exists t. split; [|done]. exists l1, u, l2. split; [done|].
    split; [by apply distinct_iff|]. split; [done|]. by apply same_iff. }
  split; [apply H|]. intros (t & Ht & ->). destruct (check_for_duplicates n tests) as [m|] eqn:E.
  - destruct (H m eq_refl) as (u & Hu & ->). by rewrite (first_duplicate_unique tests t u Ht Hu).
  - exfalso. apply check_accepts in E. destruct Ht as (l1 & u & l2 & -> & _ & Hu & Hs).
    apply elem_of_list_lookup in Hu as [i Hi]. apply (E i (length l1) u t); [by apply lookup_lt_Some in Hi| | |done].
    + by rewrite lookup_app_l by by apply lookup_lt_Some in Hi.
    + by rewrite list_lookup_middle.
Qed.

(** *** Programs *)
Section add.
  Context {D K : Type} (rt : D) (init_suite : suite (text * test) -> D) (init_test : text * test -> D) (m : K -> text * test -> bool).
  Notation tree := (wgraph unit (snode (text * test) D)).
  Notation add := (add_test_suite rt init_suite init_test m).
  Notation adds := (add_test_suites rt init_suite init_test m).

  Lemma refused n tests t f g : first_duplicate tests t -> add (AddTests n tests) f g = Refused (duplication_message n t) f g.
  Proof.
    intros H. unfold add_test_suite. cbn [checked]. assert (E : check_for_duplicates n tests = Some (duplication_message n t)).
    { apply check_refuses. by exists t. } by rewrite E.
  Qed.

  Lemma fine_checked c : fine c <-> checked c = None.
  Proof. destruct c as [n tests|n subs]; cbn; [symmetry; apply check_accepts|done]. Qed.

  Lemma all_fine l : forall f g, Forall fine l -> adds l f g = Extracted (add_suites rt init_suite init_test m (map suite_of l) f g).
  Proof.
    induction l as [|c l IH]; intros f g HF; [done|]. apply Forall_cons in HF as [Hc HF]. cbn [add_test_suites map add_suites].
    apply fine_checked in Hc. unfold add_test_suite. rewrite Hc.
    destruct (add_suite rt init_suite init_test m (suite_of c) f g) as [f1 [[g1|e g1| |]| | |]] eqn:E; cbn [fbind]; try done.
    by apply IH.
  Qed.

  Lemma adds_app l : forall k f g f' g', adds l f g = Extracted (f', Ok (Done g')) -> adds (l ++ k) f g = adds k f' g'.
  Proof.
    induction l as [|c l IH]; intros k f g f' g'; cbn [add_test_suites app]; [by intros [= -> ->]|].
    destruct (add c f g) as [msg f1 g1|[f1 [[g1|e g1| |]| | |]]]; try done. apply IH.
  Qed.

  (** What the runner has before [l] is nothing, or a tree of suites. *)
  Lemma stops pre n tests t post suites items : Forall fine pre -> first_duplicate tests t ->
    exists f g, add_suites rt init_suite init_test m (map suite_of pre) (make_filter suites items) (WGraph [] []) = (f, Ok (Done g))
      /\ adds (pre ++ AddTests n tests :: post) (make_filter suites items) (WGraph [] []) = Refused (duplication_message n t) f g.
  Proof.
    intros HF Ht.
    assert (H : exists f g, add_suites rt init_suite init_test m (map suite_of pre) (make_filter suites items) (WGraph [] []) = (f, Ok (Done g))).
    { destruct pre as [|c pre]; [by eexists _, _|].
      destruct (add_suites_all rt init_suite init_test m tt (fun _ => tt) eq_refl (fun _ => eq_refl) (map suite_of (c :: pre)) suites items ltac:(done))
        as (want & f & g & ps & _ & H & _). by exists f, g. }
    destruct H as (f & g & H). exists f, g. split; [done|]. pose proof (all_fine pre (make_filter suites items) (WGraph [] []) HF) as E. rewrite H in E.
    rewrite (adds_app _ _ _ _ _ _ E). cbn [add_test_suites]. by rewrite (refused n tests t f g Ht).
  Qed.

  Definition label (x : text * test) : text * element := (x.1, element_of x.2).

  Lemma labels_distinct l : Forall only_tests l -> Forall fine l -> NoDup (map call_name l) ->
    NoDup (map label (map fst (concat (map (fun c => items_of [] (suite_of c)) l)))).
  Proof.
    induction l as [|c l IH]; intros HO HF HN; [constructor|]. apply Forall_cons in HO as [Ho HO]. apply Forall_cons in HF as [Hf HF].
    apply NoDup_cons in HN as [Hn HN]. cbn [map concat]. rewrite !map_app. apply NoDup_app. split; [|split; [|by apply IH]].
    - destruct c as [n tests|n subs]; [|done]. cbn in Hf |- *. apply distinct_iff in Hf. rewrite !map_map. cbn.
      change (fun x : test => label (n, x)) with (fun x : test => (n, element_of x)). 
      replace (map (fun x : test => (n, element_of x)) tests) with (map (pair n) (map element_of tests)) by (by rewrite map_map).
      apply NoDup_fmap_2; [|done]. intros x y E. by injection E.
    - intros x Hx Hx'. apply Hn. destruct c as [n tests|n subs]; [|done]. cbn in Hx. rewrite !map_map in Hx. cbn in Hx.
      apply elem_of_list_fmap in Hx as (t & -> & _). cbn [call_name]. clear -HO Hx'. induction l as [|c l IH]; [by apply elem_of_nil in Hx'|].
      apply Forall_cons in HO as [Ho HO]. cbn [map concat] in Hx' |- *. rewrite !map_app in Hx'. apply elem_of_app in Hx' as [H|H]; [|right; by apply IH].
      destruct c as [n' tests'|n' subs]; [|done]. cbn in H. rewrite !map_map in H. cbn in H.
      apply elem_of_list_fmap in H as (u & E & _). apply elem_of_cons. left. exact (f_equal fst E).
  Qed.

  Lemma identified l suites items f g : Forall only_tests l -> NoDup (map call_name l) -> l <> [] ->
    adds l (make_filter suites items) (WGraph [] []) = Extracted (f, Ok (Done g)) ->
    forall i j x y, i < j -> tests_of (weights g) !! i = Some x -> tests_of (weights g) !! j = Some y -> x.1 = y.1 -> ~ same x.2 y.2.
  Proof.
    intros HO HN Hne E.
    assert (HF : Forall fine l).
    { clear -E HO. revert E. generalize (make_filter suites items) (WGraph (W := unit) [] (@nil (snode (text * test) D))).
      induction l as [|c l IH]; intros f0 g0 E; [constructor|]. apply Forall_cons in HO as [_ HO]. cbn [add_test_suites] in E.
      unfold add_test_suite in E. destruct (checked c) eqn:Ec; [done|]. constructor; [by apply fine_checked|].
      destruct (add_suite rt init_suite init_test m (suite_of c) f0 g0) as [f1 [[g1|e g1| |]| | |]]; try done. by apply (IH HO f1 g1). }
    pose proof (labels_distinct l HO HF HN) as Hd. rewrite (all_fine l _ _ HF) in E.
    destruct (add_suites_all rt init_suite init_test m tt (fun _ => tt) eq_refl (fun _ => eq_refl) (map suite_of l) suites items)
        as (want & f1 & g1 & ps & _ & H & _ & _ & Ht); [by destruct l|].
    rewrite H in E. injection E as -> ->. rewrite map_map in Ht.
    assert (Hs : NoDup (map label (tests_of (weights g)))).
    { rewrite Ht. revert Hd. generalize (concat (map (fun c => items_of [] (suite_of c)) l)). clear. intros k. induction k as [|x k IH]; [done|].
      cbn [map List.filter]. intros Hd. apply NoDup_cons in Hd as [Hx Hd]. destruct (want x.1 x.2); [|by apply IH]. cbn [map]. constructor; [|by apply IH].
      intros Hin. apply Hx. clear -Hin. induction k as [|y k IH]; [done|]. cbn [map List.filter] in *. destruct (want y.1 y.2).
      - cbn [map] in Hin. apply elem_of_cons in Hin as [->|Hin]; [left|right; by apply IH].
      - right. by apply IH. }
    intros i j x y Hij Hi Hj E1 E2. apply same_iff in E2. rewrite NoDup_alt in Hs.
    assert (i = j); [|lia]. apply (Hs i j (label x)); rewrite list_lookup_fmap; [by rewrite Hi|]. rewrite Hj. cbn. f_equal. unfold label. by rewrite E1, E2.
  Qed.
End add.
