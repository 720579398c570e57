(** Proofs about [add_to_suite]. *)
From Coq Require Import Ascii String.
From stdpp Require Import list sets.
From Verif.Base Require Import Outcome Compare ListLemmas.
From Verif.Text Require Import Model Spec Proofs ProofsIndent.
From Verif.Edit Require Import Model Spec Proofs ModelSuite SpecSuite.
Local Open Scope res_scope.
Local Notation "⌜ s ⌝" := (list_ascii_of_string s%string).
Local Notation length := List.length.

(** ** Searching *)

Lemma occurs_app_l' from l1 l2 : occurs from l1 -> occurs from (l1 ++ l2).
Proof. intros (i&p&q&->&_). exists (length p), p, (q ++ l2). by rewrite <- !app_assoc. Qed.

Lemma occurs_app_r from l1 l2 : occurs from l2 -> occurs from (l1 ++ l2).
Proof. intros (i&p&q&->&_). exists (length (l1 ++ p)), (l1 ++ p), q. by rewrite <- !app_assoc. Qed.

Lemma occurs_self t l1 l2 : occurs t (l1 ++ t ++ l2).
Proof. by exists (length l1), l1, l2. Qed.

Lemma occurs_empty l : occurs [] l.
Proof. by exists 0, [], l. Qed.

(** A text without a certain character does not extend over this character. *)
Lemma occurs_split_char d t x y : d ∉ t -> t <> [] -> occurs t (x ++ d :: y) <-> occurs t x \/ occurs t y.
Proof.
  intros Hn He. split.
  - intros (i&p&q&E&_). symmetry in E. apply app_eq_inv in E as [(k&->&E)|(k&->&E)].
    + destruct k as [|c k]; cbn in E.
      * destruct t as [|c t]; [done|]. cbn in E. injection E as <- _. exfalso. apply Hn. set_solver.
      * injection E as <- ->. right. apply occurs_self.
    + apply app_eq_inv in E as [(m&->&E)|(m&->&E)].
      * destruct m as [|c m]; [left; rewrite app_nil_r; by exists (length p), p, []; rewrite app_nil_r|].
        exfalso. cbn in E. injection E as <- _. apply Hn. set_solver.
      * left. apply (occurs_self t p).
  - intros [H|H]; [by apply occurs_app_l'|]. change (d :: y) with ([d] ++ y). by apply occurs_app_r, occurs_app_r.
Qed.

Lemma occurs_split t x y : nl ∉ t -> t <> [] -> occurs t (x ++ nl :: y) <-> occurs t x \/ occurs t y.
Proof. apply occurs_split_char. Qed.

(** A text does not begin where its first character does not occur. *)
Lemma occurs_skip c q x y : c ∉ x -> occurs (c :: q) (x ++ y) -> occurs (c :: q) y.
Proof.
  intros Hc (i&p&r&E&_). symmetry in E. apply app_eq_inv in E as [(k&->&->)|(k&->&E)]; [by apply occurs_self|].
  destruct k as [|d k].
  - cbn in E. rewrite <- E. apply (occurs_self (c :: q) []).
  - cbn in E. injection E as <- _. exfalso. apply Hc. set_solver.
Qed.

(** Where a pattern is found first does not depend on what comes after it. *)
Lemma first_at_swap p a r r' : first_at p (a ++ p ++ r) (length a) -> first_at p (a ++ p ++ r') (length a).
Proof.
  intros [_ H]. split; [by exists a, r'|]. intros j (x&y&E&<-).
  destruct (decide (length a <= length x)) as [|Hlt]; [done|].
  apply H. exists x. assert (x ++ p = take (length x + length p) (a ++ p)) as Hx.
  { transitivity (take (length x + length p) (x ++ p ++ y)).
    - rewrite app_assoc, <- app_length. by rewrite take_app.
    - rewrite <- E, app_assoc, take_app_le; [done|]. rewrite app_length. lia. }
  exists (drop (length x + length p) (a ++ p) ++ r). split; [|done].
  rewrite (app_assoc x p), Hx, (app_assoc (take _ _)), take_drop, <- app_assoc. done.
Qed.

Lemma find_first_at p a r : first_at p (a ++ p ++ r) (length a) -> find_first p (a ++ p ++ r) = Some (length a).
Proof. apply find_first_Some. Qed.

Lemma find_from_at p a x r : first_at p (x ++ p ++ r) (length x) -> find_from (a ++ x ++ p ++ r) p (length a) = Some (length a + length x).
Proof. intros H. rewrite find_from_app. apply find_first_Some in H. by rewrite H. Qed.

(** The last line break. *)
Lemma rfind_nl_take a c r : c <> nl -> rfind_nl (a ++ c :: r) (length a) = find_last [nl] a.
Proof.
  intros Hc. unfold rfind_nl.
  replace (take (length a + 1) (a ++ c :: r)) with (a ++ [c])
    by (rewrite take_app_ge by lia; f_equal; replace (length a + 1 - length a) with 1 by lia; done).
  induction a as [|d a IH].
  - cbn. by rewrite decide_False.
  - cbn [find_last app]. rewrite IH. destruct (find_last [nl] a); [done|]. cbn. by destruct (decide (nl = d)).
Qed.

Lemma find_last_nl p w : nl ∉ w -> find_last [nl] (p ++ nl :: w) = Some (length p).
Proof.
  intros Hw. pose proof (find_last_spec [nl] (p ++ nl :: w)) as H. destruct (find_last [nl] (p ++ nl :: w)) as [i|].
  - destruct H as [H1 H2]. f_equal. specialize (H2 (length p) ltac:(by exists p, w)).
    apply occurs_at_char in H1. destruct (decide (i = length p)) as [|Hne]; [done|]. exfalso.
    rewrite lookup_app_r in H1 by lia. destruct (i - length p) as [|k] eqn:E; [lia|]. cbn in H1. apply Hw. by eapply elem_of_list_lookup_2.
  - exfalso. apply H. exists (length p). by exists p, w.
Qed.

Lemma find_last_nl_inv a i : find_last [nl] a = Some i -> exists p w, a = p ++ nl :: w /\ length p = i /\ nl ∉ w.
Proof.
  intros E. pose proof (find_last_spec [nl] a) as H. rewrite E in H. destruct H as [(p&w&->&<-) H].
  exists p, w. split; [done|]. split; [done|]. intros Hw. apply elem_of_list_split in Hw as (w1&w2&->).
  specialize (H (length (p ++ nl :: w1))). rewrite app_length in H. cbn in H.
  enough (length p + S (length w1) <= length p) by lia. apply H. exists (p ++ nl :: w1), w2. split; [|rewrite app_length; cbn; lia].
  rewrite <- !app_assoc. done.
Qed.

(** ** The loop over the tests *)

Lemma suite_line_eq ind t : suite_line ind t = test_line ind t.
Proof. unfold suite_line, test_line. rewrite <- !app_assoc. done. Qed.

Lemma test_lines_cons ind t ts : test_lines ind (t :: ts) = test_line ind t ++ test_lines ind ts.
Proof. done. Qed.

Lemma test_lines_app ind ts us : test_lines ind (ts ++ us) = test_lines ind ts ++ test_lines ind us.
Proof. unfold test_lines. by rewrite map_app, concat_app. Qed.

Lemma occurs_line ind t r : occurs t (test_line ind t ++ r).
Proof. unfold test_line. rewrite <- !app_assoc. do 3 apply occurs_app_r. apply (occurs_self t [] _). Qed.

(** Lines put in place of a line break keep what was there. *)
Lemma occurs_more ind us t x y : nl ∉ t -> occurs t (x ++ nl :: y) -> occurs t (x ++ nl :: test_lines ind us ++ y).
Proof.
  intros Hn H. destruct (decide (t = [])) as [->|He]; [apply occurs_empty|].
  apply occurs_split; [done|done|]. apply (proj1 (occurs_split t x y Hn He)) in H as [H|H].
  - by left.
  - right. by apply occurs_app_r.
Qed.

Lemma insert_at_app a b s : insert_at (a ++ b) (length a) s = a ++ s ++ b.
Proof. unfold insert_at. by rewrite take_app, drop_app. Qed.

Definition end_of (a h c0 c1 : text) : option nat :=
  match c1 with [] => None | _ => Some (length a + length h + 1 + length c0) end.

Lemma add_tests_spec ind a h c0 c1 : forall ts n0, exists added, added `sublist_of` ts /\
  add_tests (a ++ h ++ nl :: n0 ++ c0 ++ c1) (length a) (length a + length h) (end_of a h c0 c1) ind ts =
    a ++ h ++ nl :: test_lines ind (reverse added) ++ n0 ++ c0 ++ c1 /\
  Forall (fun t => nl ∉ t -> occurs t (h ++ nl :: test_lines ind (reverse added) ++ n0 ++ c0)) ts.
Proof.
  induction ts as [|t ts IH]; intros n0; cbn [add_tests].
  { exists []. split; [done|]. split; [done|]. constructor. }
  match goal with |- context [find_first t ?r] => set (region := r) end.
  assert (exists z, h ++ nl :: n0 ++ c0 = region ++ z) as [z Hz].
  { subst region. unfold end_of. destruct c1 as [|d c1].
    - exists []. by rewrite drop_app, !app_nil_r.
    - rewrite drop_app. exists (drop (length h + 1 + length c0) (h ++ nl :: n0 ++ c0)).
      replace (length a + length h + 1 + length c0 - length a) with (length h + 1 + length c0) by lia.
      replace (h ++ nl :: n0 ++ c0 ++ d :: c1) with ((h ++ nl :: n0 ++ c0) ++ d :: c1) by (by rewrite <- !app_assoc; cbn; rewrite <- !app_assoc).
      rewrite take_app_le; [by rewrite take_drop|]. rewrite !app_length. cbn. rewrite app_length. lia. }
  clearbody region. destruct (find_first t region) eqn:E.
  - destruct (IH n0) as (added&Hs&He&Hf). exists added. split; [by apply sublist_cons|]. split; [done|]. constructor; [|done].
    intros Hn. apply occurs_more; [done|]. rewrite Hz. apply occurs_app_l'. apply find_first_Some in E. destruct E as [E _]. by eexists.
  - destruct (IH (test_line ind t ++ n0)) as (added&Hs&He&Hf). exists (t :: added). split; [by constructor|].
    replace (insert_at (a ++ h ++ nl :: n0 ++ c0 ++ c1) (length a + length h + 1) (suite_line ind t))
      with (a ++ h ++ nl :: (test_line ind t ++ n0) ++ c0 ++ c1).
    + rewrite He, reverse_cons, test_lines_app, test_lines_cons. cbn [test_lines map concat]. rewrite app_nil_r, <- !app_assoc.
      split; [done|]. constructor.
      * intros _. change (nl :: ?x) with ([nl] ++ x). do 3 apply occurs_app_r. apply occurs_line.
      * eapply Forall_impl; [exact Hf|]. intros u Hu Hn. specialize (Hu Hn). by rewrite <- !app_assoc in Hu.
    + replace (a ++ h ++ nl :: n0 ++ c0 ++ c1) with ((a ++ h ++ [nl]) ++ n0 ++ c0 ++ c1) by (by rewrite <- !app_assoc).
      replace (length a + length h + 1) with (length (a ++ h ++ [nl])) by (rewrite !app_length; cbn; lia).
      rewrite insert_at_app, suite_line_eq, <- !app_assoc. done.
Qed.

(** If every test is there already nothing happens. *)
Lemma add_tests_none ind a h c0 c1 : forall ts, Forall (fun t => occurs t (h ++ nl :: c0)) ts ->
  add_tests (a ++ h ++ nl :: c0 ++ c1) (length a) (length a + length h) (end_of a h c0 c1) ind ts = a ++ h ++ nl :: c0 ++ c1.
Proof.
  induction 1 as [|t ts Ht _ IH]; cbn [add_tests]; [done|].
  match goal with |- context [find_first t ?r] => set (region := r) end.
  assert (region = h ++ nl :: c0) as ->.
  { subst region. unfold end_of. destruct c1 as [|d c1].
    - by rewrite drop_app, !app_nil_r.
    - rewrite drop_app. replace (length a + length h + 1 + length c0 - length a) with (length (h ++ nl :: c0)) by (rewrite app_length; cbn; lia).
      replace (h ++ nl :: c0 ++ d :: c1) with ((h ++ nl :: c0) ++ d :: c1) by (by rewrite <- !app_assoc). by rewrite take_app. }
  destruct (find_first t _) eqn:E; [done|]. apply find_first_None in E. done.
Qed.

(** Tests which are nowhere in sight are all added. *)
Lemma add_tests_all ind a h c0 c1 : forall ts n0, Forall one_line ts ->
  Forall (fun t => ~ occurs t h /\ ~ occurs t c0 /\ ~ occurs t n0) ts ->
  ForallOrdPairs (fun t u => ~ occurs u (test_line ind t)) ts ->
  (n0 = [] \/ exists k, n0 = k ++ [nl]) ->
  add_tests (a ++ h ++ nl :: n0 ++ c0 ++ c1) (length a) (length a + length h) (end_of a h c0 c1) ind ts =
    a ++ h ++ nl :: test_lines ind (reverse ts) ++ n0 ++ c0 ++ c1.
Proof.
  assert (forall u k y, one_line u -> (k = [] \/ exists k', k = k' ++ [nl]) -> ~ occurs u k -> ~ occurs u y -> ~ occurs u (k ++ y)) as Hsplit.
  { intros u k y [He Hn] [->|[k' ->]] Hk Hy; [done|]. rewrite <- app_assoc. cbn. rewrite occurs_split by done.
    intros [H|H]; [|done]. apply Hk. by apply occurs_app_l'. }
  induction ts as [|t ts IH]; intros n0 Hl Hf Hp Hn0; cbn [add_tests]; [done|].
  apply Forall_cons in Hl as [Ht Hl]. apply Forall_cons in Hf as [(Hh&Hc&Hn) Hf]. inversion_clear Hp as [|? ? Hp1 Hp2].
  match goal with |- context [find_first t ?r] => set (region := r) end.
  assert (exists z, h ++ nl :: n0 ++ c0 = region ++ z) as [z Hz].
  { subst region. unfold end_of. destruct c1 as [|d c1].
    - exists []. by rewrite drop_app, !app_nil_r.
    - rewrite drop_app. exists (drop (length h + 1 + length c0) (h ++ nl :: n0 ++ c0)).
      replace (length a + length h + 1 + length c0 - length a) with (length h + 1 + length c0) by lia.
      replace (h ++ nl :: n0 ++ c0 ++ d :: c1) with ((h ++ nl :: n0 ++ c0) ++ d :: c1) by (by rewrite <- !app_assoc; cbn; rewrite <- !app_assoc).
      rewrite take_app_le; [by rewrite take_drop|]. rewrite !app_length. cbn. rewrite app_length. lia. }
  clearbody region. assert (find_first t region = None) as ->.
  { apply find_first_None. intros Ho. assert (occurs t (h ++ nl :: n0 ++ c0)) as H by (rewrite Hz; by apply occurs_app_l').
    destruct Ht as [He Hnl]. apply (proj1 (occurs_split t _ _ Hnl He)) in H as [H|H]; [done|]. revert H. apply Hsplit; done. }
  replace (insert_at (a ++ h ++ nl :: n0 ++ c0 ++ c1) (length a + length h + 1) (suite_line ind t))
    with (a ++ h ++ nl :: (test_line ind t ++ n0) ++ c0 ++ c1).
  - rewrite (IH (test_line ind t ++ n0)); [| done | | done | ].
    + rewrite reverse_cons, test_lines_app, test_lines_cons. cbn [test_lines map concat]. by rewrite app_nil_r, <- !app_assoc.
    + rewrite Forall_forall in *. intros u Hu. destruct (Hf u Hu) as (H1&H2&H3). split; [done|]. split; [done|].
      apply Hsplit; [by apply Hl| |by apply Hp1|done]. right. exists (ind ++ ind ++ ind ++ t ++ ⌜","⌝). unfold test_line. by rewrite <- !app_assoc.
    + right. destruct Hn0 as [->|[k ->]].
      * exists (ind ++ ind ++ ind ++ t ++ ⌜","⌝). unfold test_line. by rewrite <- !app_assoc.
      * exists (test_line ind t ++ k). by rewrite <- !app_assoc.
  - replace (a ++ h ++ nl :: n0 ++ c0 ++ c1) with ((a ++ h ++ [nl]) ++ n0 ++ c0 ++ c1) by (by rewrite <- !app_assoc).
    replace (length a + length h + 1) with (length (a ++ h ++ [nl])) by (rewrite !app_length; cbn; lia).
    rewrite insert_at_app, suite_line_eq, <- !app_assoc. done.
Qed.

(** Whatever the end of the statement is taken to be, only lines are inserted. *)
Lemma add_tests_frame ind a h c e : forall ts n0, exists added, added `sublist_of` ts /\
  add_tests (a ++ h ++ nl :: n0 ++ c) (length a) (length a + length h) e ind ts =
    a ++ h ++ nl :: test_lines ind (reverse added) ++ n0 ++ c.
Proof.
  induction ts as [|t ts IH]; intros n0; cbn [add_tests]; [by exists []|].
  destruct (find_first t _).
  - destruct (IH n0) as (added&Hs&He). exists added. split; [by apply sublist_cons|done].
  - destruct (IH (test_line ind t ++ n0)) as (added&Hs&He). exists (t :: added). split; [by constructor|].
    replace (insert_at (a ++ h ++ nl :: n0 ++ c) (length a + length h + 1) (suite_line ind t))
      with (a ++ h ++ nl :: (test_line ind t ++ n0) ++ c).
    + rewrite He, reverse_cons, test_lines_app, test_lines_cons. cbn [test_lines map concat]. by rewrite app_nil_r, <- !app_assoc.
    + replace (a ++ h ++ nl :: n0 ++ c) with ((a ++ h ++ [nl]) ++ n0 ++ c) by (by rewrite <- !app_assoc).
      replace (length a + length h + 1) with (length (a ++ h ++ [nl])) by (rewrite !app_length; cbn; lia).
      rewrite insert_at_app, suite_line_eq, <- !app_assoc. done.
Qed.

(** ** The place of a suite *)

Lemma pattern_eq name : suite_pattern name = quoted name.
Proof. done. Qed.

Definition placed (a l : text) : Prop :=
  exists lp, find_last [nl] a = Some lp /\ length preamble < lp /\ occurs preamble (drop (lp - length preamble) l).

Lemma add_existing l name a r c ind tests : suite_at l name a r c -> tests <> [] ->
  (placed a l /\ add_to_suite l name ind tests =
     Ok (add_tests (a ++ (quoted name ++ r) ++ nl :: c) (length a) (length a + length (quoted name ++ r)) (find_from l closing (length a)) ind tests)) \/
  (~ placed a l /\ add_to_suite l name ind tests = Throw RuntimeError).
Proof.
  intros [Hl Hf Hn] Ht. unfold add_to_suite. destruct tests as [|t ts]; [done|].
  rewrite pattern_eq. rewrite (proj2 (find_first_Some _ _ _) Hf).
  assert (rfind_nl l (length a) = find_last [nl] a) as ->.
  { rewrite Hl. unfold quoted. cbn. by apply rfind_nl_take. }
  assert (find_from l [nl] (length a) = Some (length a + length (quoted name ++ r))) as ->.
  { rewrite Hl. rewrite (app_assoc (quoted name)). by apply find_nl. }
  assert (l = a ++ (quoted name ++ r) ++ nl :: c) as Hl' by (rewrite Hl; by rewrite <- !app_assoc).
  assert (forall p e ts', exists d x, add_tests l p (length a + length (quoted name ++ r)) e ind ts' = d :: x) as Hne.
  { assert (exists d x, l = d :: x) as Hx. { rewrite Hl. destruct a; [|by eexists _, _]. by eexists _, _. }
    clear -Hx. intros p e ts'. revert l Hx. induction ts' as [|u ts' IH]; intros l Hx; cbn [add_tests]; [done|]. apply IH.
    destruct Hx as (d&x&->). destruct (find_first u _); [by eexists _, _|]. unfold insert_at.
    destruct (length a + length (quoted name ++ r) + 1) eqn:E; [lia|]. cbn. by eexists _, _. }
  destruct (find_last [nl] a) as [lp|] eqn:Elp.
  2: { right. split; [|done]. intros (lp&?&_). congruence. }
  destruct (decide (length preamble < lp)) as [Hlt|Hlt].
  2: { right. split; [|done]. intros (lp'&E&?&_). assert (lp' = lp) as -> by congruence. done. }
  assert (lp < length a) as Hlen. { apply find_last_nl_inv in Elp as (p&w&->&<-&_). rewrite app_length. cbn. lia. }
  assert (find_from l preamble (lp - length preamble) = Nat.add (lp - length preamble) <$> find_first preamble (drop (lp - length preamble) l)) as ->
    by (unfold find_from; rewrite decide_True by (rewrite Hl', !app_length; lia); done).
  destruct (find_first preamble (drop (lp - length preamble) l)) eqn:Ep; cbn [fmap option_fmap option_map rbind].
  - left. split.
    + exists lp. split; [done|]. split; [done|]. apply find_first_Some in Ep as [Ep _]. by eexists.
    + rewrite <- Hl'. destruct (Hne (length a) (find_from l closing (length a)) (t :: ts)) as (d&x&->). done.
  - right. split; [|done]. intros (lp'&E&_&H). assert (lp' = lp) as -> by congruence. apply find_first_None in Ep. done.
Qed.

Lemma opened_placed a y : opened a -> placed a (a ++ y).
Proof.
  intros (p&w&->&Hw&Hp). change (⌜"add_test_suite("⌝) with preamble. exists (length (p ++ preamble)). split.
  - rewrite app_assoc. by apply find_last_nl.
  - rewrite app_length. split; [destruct p; [done|cbn; lia]|]. replace (length p + length preamble - length preamble) with (length p) by lia.
    rewrite <- !app_assoc, drop_app. apply (occurs_self preamble []).
Qed.

(** ** The end of the statement *)

Lemma closing_nl : nl ∉ closing.
Proof. apply (bool_decide_unpack _). by vm_compute. Qed.

Lemma find_end a h c b : unclosed h -> body c b -> exists c1, c = b ++ c1 /\ find_from (a ++ h ++ nl :: c) closing (length a) = end_of a h b c1.
Proof.
  intros Hh Hb. destruct Hb as [[-> Hc]|(post&->&Hf)].
  - exists []. split; [by rewrite app_nil_r|]. cbn [end_of]. apply find_from_app_None.
    rewrite occurs_split by (done || apply closing_nl). by intros [H|H].
  - exists (closing ++ post). split; [done|]. cbn [end_of closing list_ascii_of_string app].
    change (")"%char :: ";"%char :: post) with (closing ++ post). change (⌜");"⌝ ++ post) with (closing ++ post).
    replace (a ++ h ++ nl :: b ++ closing ++ post) with (a ++ (h ++ nl :: b) ++ closing ++ post) by (by rewrite <- !app_assoc).
    rewrite find_from_at; [f_equal; rewrite !app_length; cbn; lia|].
    apply first_after; [apply (bool_decide_unpack _); by vm_compute|]. change (")"%char :: _) with closing.
    rewrite occurs_split by (done || apply closing_nl). intros [H|H]; [done|].
    destruct H as (i&x&y&E&<-). destruct Hf as [_ Hf]. enough (length b <= length x). { rewrite E in H. rewrite app_length in H. cbn in H. lia. }
    apply Hf. exists x, (y ++ closing ++ post). by rewrite E, <- !app_assoc.
Qed.

Lemma body_exists c : exists b, body c b.
Proof.
  destruct (first_or_none closing c) as [H|(pre&post&->&H)]; [exists c; by left|]. exists pre. right. by exists post.
Qed.

(** ** The properties for suites which exist *)

Lemma ok_tests l name ind tests out : add_to_suite l name ind tests = Ok out -> tests <> [].
Proof. by destruct tests. Qed.

Lemma suite_frame l name a r c ind tests out : suite_at l name a r c -> add_to_suite l name ind tests = Ok out ->
  exists added, added `sublist_of` tests /\ out = a ++ quoted name ++ r ++ [nl] ++ test_lines ind (reverse added) ++ c.
Proof.
  intros Hs Ho. destruct (add_existing l name a r c ind tests Hs (ok_tests _ _ _ _ _ Ho)) as [[_ H]|[_ H]]; [|congruence].
  rewrite Ho in H. injection H as ->.
  destruct (add_tests_frame ind a (quoted name ++ r) c (find_from l closing (length a)) tests []) as (added&H1&H2). exists added. split; [done|].
  etransitivity; [exact H2|]. by rewrite <- !app_assoc.
Qed.

Lemma suite_present l name a r c b ind tests out : suite_at l name a r c -> unclosed (quoted name ++ r) -> body c b ->
  add_to_suite l name ind tests = Ok out ->
  exists added c1, added `sublist_of` tests /\ c = b ++ c1 /\
    out = a ++ quoted name ++ r ++ [nl] ++ test_lines ind (reverse added) ++ c /\
    Forall (fun t => nl ∉ t -> occurs t (quoted name ++ r ++ [nl] ++ test_lines ind (reverse added) ++ b)) tests.
Proof.
  intros Hs Hu Hb Ho. destruct (add_existing l name a r c ind tests Hs (ok_tests _ _ _ _ _ Ho)) as [[_ H]|[_ H]]; [|congruence].
  rewrite Ho in H. injection H as ->.
  destruct (find_end a (quoted name ++ r) c b Hu Hb) as (c1&->&E). pose proof (suite_text _ _ _ _ _ Hs) as Hl.
  assert (l = a ++ (quoted name ++ r) ++ nl :: b ++ c1) as Hl' by (rewrite Hl; by rewrite <- !app_assoc).
  rewrite <- Hl' in E at 1. rewrite E.
  destruct (add_tests_spec ind a (quoted name ++ r) b c1 tests []) as (added&H1&H2&H3). exists added, c1.
  split; [done|]. split; [done|]. split; [etransitivity; [exact H2|]; by rewrite <- !app_assoc|].
  eapply Forall_impl; [exact H3|]. intros t Ht Hn. specialize (Ht Hn). by rewrite <- !app_assoc in Ht.
Qed.

Lemma suite_all_added l name a r c b ind tests : suite_at l name a r c -> opened a -> unclosed (quoted name ++ r) -> body c b -> tests <> [] ->
  Forall one_line tests -> Forall (fun t => ~ occurs t (quoted name ++ r) /\ ~ occurs t b) tests ->
  ForallOrdPairs (fun t u => ~ occurs u (test_line ind t)) tests ->
  add_to_suite l name ind tests = Ok (a ++ quoted name ++ r ++ [nl] ++ test_lines ind (reverse tests) ++ c).
Proof.
  intros Hs Hop Hu Hb Ht H1 H2 H3. pose proof (suite_text _ _ _ _ _ Hs) as Hl.
  destruct (add_existing l name a r c ind tests Hs Ht) as [[_ ->]|[H _]].
  2: { exfalso. apply H. rewrite Hl. by apply opened_placed. }
  destruct (find_end a (quoted name ++ r) c b Hu Hb) as (c1&->&E).
  assert (l = a ++ (quoted name ++ r) ++ nl :: b ++ c1) as Hl' by (rewrite Hl; by rewrite <- !app_assoc).
  rewrite <- Hl' in E at 1. rewrite E. f_equal. etransitivity; [apply (add_tests_all ind a (quoted name ++ r) b c1 tests []); [done| |done|by left]|by rewrite <- !app_assoc].
  rewrite Forall_forall in *. intros t Hi. destruct (H2 t Hi). split; [done|]. split; [done|].
  intros (i&Hx). apply occurs_at_nil_r in Hx as [_ ->]. by destruct (H1 [] Hi).
Qed.

Lemma suite_success l name a r c ind tests : suite_at l name a r c -> opened a -> tests <> [] -> exists out, add_to_suite l name ind tests = Ok out.
Proof.
  intros Hs Hop Ht. destruct (add_existing l name a r c ind tests Hs Ht) as [[_ ->]|[H _]]; [by eexists|].
  exfalso. apply H. rewrite (suite_text _ _ _ _ _ Hs). by apply opened_placed.
Qed.

Lemma suite_settled l name a r c b ind tests : suite_at l name a r c -> placed a l -> unclosed (quoted name ++ r) -> body c b -> tests <> [] ->
  Forall (fun t => occurs t (quoted name ++ r ++ [nl] ++ b)) tests -> add_to_suite l name ind tests = Ok l.
Proof.
  intros Hs Hop Hu Hb Ht H1. pose proof (suite_text _ _ _ _ _ Hs) as Hl.
  destruct (add_existing l name a r c ind tests Hs Ht) as [[_ ->]|[H _]]; [|done].
  destruct (find_end a (quoted name ++ r) c b Hu Hb) as (c1&->&E).
  assert (l = a ++ (quoted name ++ r) ++ nl :: b ++ c1) as Hl' by (rewrite Hl; by rewrite <- !app_assoc).
  rewrite <- Hl' in E at 1. rewrite E, add_tests_none; [by rewrite Hl'|].
  eapply Forall_impl; [exact H1|]. cbn. intros t. by rewrite <- !app_assoc.
Qed.
