(** Proofs about [add_to_suite]: new suites, and calls which are repeated. *)
From Coq Require Import Ascii String.
From stdpp Require Import list sets.
From Verif.Base Require Import Outcome Compare ListLemmas.
From Verif.Text Require Import Model Spec Proofs ProofsIndent.
From Verif.Edit Require Import Model Spec Proofs ModelSuite SpecSuite ProofsSuite.
Local Open Scope res_scope.
Local Notation "⌜ s ⌝" := (list_ascii_of_string s%string).
Local Notation length := List.length.

Lemma append_one s t ind : s <> [] -> one_line t -> append_indented (S (length t)) s t ind = Ok (s ++ nl :: ind ++ t).
Proof.
  intros Hs [He Hn]. rewrite append_indented_spec by lia. destruct s; [done|]. destruct t as [|d t]; [done|].
  by rewrite lines_flat.
Qed.

Lemma append_close s ind : s <> [] -> append_indented 4 s (closing ++ [nl]) ind = Ok (s ++ nl :: ind ++ closing ++ [nl]).
Proof.
  intros Hs. rewrite append_indented_spec by (cbn; lia). destruct s; [done|].
  change (lines (closing ++ [nl])) with [closing; []]. cbn [closing list_ascii_of_string app map indent_line join].
  by rewrite <- !app_assoc.
Qed.

Lemma one_line_comma t : nl ∉ t -> one_line (t ++ [","%char]).
Proof. intros Hn. split; [by destruct t|]. rewrite elem_of_app, elem_of_list_singleton. by intros [?|?]. Qed.

Lemma append_tests ind ts : forall s, s <> [] -> Forall (fun t => nl ∉ t) ts ->
  foldl (fun acc t => let? s := acc in append_indented (S (length (t ++ [","%char]))) s (t ++ [","%char]) ind) (Ok s) ts =
  Ok (s ++ concat (map (fun t => nl :: ind ++ t ++ [","%char]) ts)).
Proof.
  induction ts as [|t ts IH]; intros s Hs Hf; cbn [foldl].
  - cbn. by rewrite app_nil_r.
  - apply Forall_cons in Hf as [Ht Hf]. cbn [rbind]. rewrite append_one by (done || by apply one_line_comma).
    rewrite IH by (done || by destruct s). cbn [map concat]. f_equal. by rewrite <- !app_assoc.
Qed.

Lemma join_tests (f : text -> text) ts t :
  concat (map (fun t => nl :: f t ++ [","%char]) ts) ++ nl :: f t = nl :: join (⌜","⌝ ++ [nl]) (map f (ts ++ [t])).
Proof.
  induction ts as [|u ts IH]; [done|]. cbn [map concat app]. rewrite <- app_assoc, IH.
  destruct (map f (ts ++ [t])) eqn:E; [by destruct ts|]. cbn [join]. rewrite <- !app_assoc. done.
Qed.

Lemma build_suite_spec name ind ts : ts <> [] -> nl ∉ name -> Forall one_line ts -> build_suite name ind ts = Ok (new_suite name ind ts).
Proof.
  intros Hts Hname Hf. destruct (exists_last Hts) as (us&t&->). apply Forall_app in Hf as [Hf Ht]. apply Forall_cons in Ht as [Ht _].
  unfold build_suite. rewrite append_one; [|done|].
  2: { split; [done|]. unfold suite_pattern. rewrite !elem_of_app, elem_of_list_singleton. intros [H|[H|H]]; [done|done|].
       by apply elem_of_cons in H as [H|H]; [done|apply elem_of_list_singleton in H]. }
  cbn [rbind]. rewrite removelast_last, last_snoc.
  rewrite append_tests; [|done|by eapply Forall_impl; [exact Hf|]; intros ? []]. cbn [rbind].
  rewrite append_one by done. cbn [rbind]. rewrite append_close by done. f_equal. unfold new_suite.
  change (suite_pattern name) with (quoted name).
  assert (map (fun t => ind ++ ind ++ ind ++ t) (us ++ [t]) = map (fun t => ((ind ++ ind) ++ ind) ++ t) (us ++ [t])) as ->
    by (apply map_ext; intros u; by rewrite <- !app_assoc).
  pose proof (join_tests (fun t => ((ind ++ ind) ++ ind) ++ t) us t) as E. cbn beta in E.
  match type of E with _ = nl :: ?j => set (J := j) in * end.
  assert (concat (map (fun t => nl :: ((ind ++ ind) ++ ind) ++ t ++ [","%char]) us) =
          concat (map (fun t => nl :: (((ind ++ ind) ++ ind) ++ t) ++ [","%char]) us)) as ->
    by (f_equal; apply map_ext; intros u; by rewrite <- !app_assoc).
  match type of E with ?x ++ _ = _ => set (X := x) in * end.
  transitivity ([nl] ++ ind ++ ind ++ ⌜"runner.add_test_suite("⌝ ++ [nl] ++ ind ++ ind ++ ind ++ quoted name ++ (X ++ nl :: ((ind ++ ind) ++ ind) ++ t) ++ [nl] ++ ind ++ ind ++ ⌜");"⌝ ++ [nl]).
  - by repeat first [rewrite <- app_assoc | progress cbn [app]].
  - rewrite E. done.
Qed.

Lemma new_suite_added l name ind ts p w q : l = p ++ [nl] ++ w ++ ⌜"runner.execute"⌝ ++ q -> first_at ⌜"runner.execute"⌝ l (length (p ++ [nl] ++ w)) ->
  nl ∉ w -> ~ occurs (quoted name) l -> ts <> [] -> nl ∉ name -> Forall one_line ts ->
  add_to_suite l name ind ts = Ok (p ++ new_suite name ind ts ++ [nl] ++ w ++ ⌜"runner.execute"⌝ ++ q).
Proof.
  intros Hl Hf Hw Hno Hts Hname Hone. unfold add_to_suite. destruct ts as [|t ts]; [done|]. set (us := t :: ts) in *.
  change (suite_pattern name) with (quoted name). rewrite (proj2 (find_first_None _ _) Hno).
  change execute with ⌜"runner.execute"⌝. rewrite (proj2 (find_first_Some _ _ _) Hf).
  assert (rfind_nl l (length (p ++ [nl] ++ w)) = Some (length p)) as ->.
  { assert (l = (p ++ [nl] ++ w) ++ "r"%char :: ⌜"unner.execute"⌝ ++ q) as -> by (rewrite Hl, <- !app_assoc; done).
    rewrite rfind_nl_take by done. by apply find_last_nl. }
  rewrite build_suite_spec by done. cbn [rbind].
  assert (insert_at l (length p) (new_suite name ind us) = p ++ new_suite name ind us ++ [nl] ++ w ++ ⌜"runner.execute"⌝ ++ q) as ->
    by (rewrite Hl; apply insert_at_app).
  destruct (p ++ new_suite name ind us ++ _) eqn:E; [by destruct p|done].
Qed.

(** ** Repeated calls *)

Lemma closing_eq : ⌜");"⌝ = ")"%char :: ⌜";"⌝.
Proof. done. Qed.

Lemma unclosed_quoted name : unclosed name -> unclosed (quoted name).
Proof.
  intros H Ho. unfold quoted in Ho. rewrite closing_eq in Ho. apply occurs_skip in Ho; [|apply (bool_decide_unpack _); by vm_compute].
  change (name ++ ⌜""","⌝) with (name ++ quote :: ⌜","⌝) in Ho.
  apply occurs_split_char in Ho as [Ho|Ho]; [done| |apply (bool_decide_unpack _); by vm_compute|done].
  destruct Ho as [i Ho]. apply occurs_at_len in Ho. cbn in Ho. lia.
Qed.

Lemma unclosed_line ind t : ")"%char ∉ ind -> unclosed t -> unclosed (ind ++ ind ++ ind ++ t ++ ⌜","⌝).
Proof.
  intros Hi H Ho. rewrite closing_eq in Ho. do 3 (apply occurs_skip in Ho; [|done]).
  change (t ++ ⌜","⌝) with (t ++ ","%char :: []) in Ho.
  apply occurs_split_char in Ho as [Ho|Ho]; [done| |apply (bool_decide_unpack _); by vm_compute|done].
  destruct Ho as [i Ho]. apply occurs_at_len in Ho. cbn in Ho. lia.
Qed.

Lemma unclosed_nl x y : unclosed x -> unclosed y -> unclosed (x ++ nl :: y).
Proof. intros Hx Hy Ho. by apply (proj1 (occurs_split closing x y closing_nl ltac:(done))) in Ho as [Ho|Ho]. Qed.

Lemma unclosed_lines ind ts y : ")"%char ∉ ind -> Forall unclosed ts -> unclosed y -> unclosed (test_lines ind ts ++ y).
Proof.
  intros Hi Hf Hy. induction Hf as [|t ts Ht _ IH]; [done|]. rewrite test_lines_cons, <- app_assoc.
  assert (test_line ind t ++ test_lines ind ts ++ y = (ind ++ ind ++ ind ++ t ++ ⌜","⌝) ++ nl :: test_lines ind ts ++ y) as ->
    by (unfold test_line; by rewrite <- !app_assoc).
  apply unclosed_nl; [by apply unclosed_line|done].
Qed.

Lemma body_intro b post : unclosed b -> body (b ++ ⌜");"⌝ ++ post) b.
Proof.
  intros H. right. exists post. split; [done|]. rewrite closing_eq. apply first_after; [|done]. apply (bool_decide_unpack _). by vm_compute.
Qed.

Lemma body_unclosed c b : body c b -> unclosed b.
Proof.
  intros [[-> H]|(post&->&[_ H])]; [done|]. intros (i&x&y&->&_). specialize (H (length x)). rewrite !app_length in H. cbn in H.
  enough (length x + S (S (length y)) <= length x) by lia. apply H. exists x, (y ++ ⌜");"⌝ ++ post). by rewrite <- !app_assoc.
Qed.

Lemma body_lines ind ts c b : ")"%char ∉ ind -> Forall unclosed ts -> body c b -> body (test_lines ind ts ++ c) (test_lines ind ts ++ b).
Proof.
  intros Hi Hf Hb. pose proof (body_unclosed _ _ Hb) as Hu. destruct Hb as [[-> H]|(post&->&_)].
  - left. split; [done|]. by apply unclosed_lines.
  - rewrite (app_assoc _ b). apply body_intro. by apply unclosed_lines.
Qed.

Lemma repeat_existing l name a r c ind ts out : clean name ind ts -> suite_at l name a r c -> unclosed (quoted name ++ r) ->
  add_to_suite l name ind ts = Ok out -> add_to_suite out name ind ts = Ok out.
Proof.
  intros [[Hn Hnc] (Hi&Hi2&Hi3) [H1 H2]] Hs Hu Ho. destruct (body_exists c) as [b Hb]. pose proof (ok_tests _ _ _ _ _ Ho) as Hts.
  destruct (add_existing l name a r c ind ts Hs Hts) as [[Hp _]|[_ H]]; [|congruence].
  destruct (suite_present l name a r c b ind ts out Hs Hu Hb Ho) as (added&c1&Hsub&Hc&Hout&Hf).
  assert (Forall unclosed (reverse added)) as Hua.
  { rewrite Forall_forall in *. intros t Ht. apply H2. apply elem_of_reverse in Ht. revert t Ht. clear -Hsub. induction Hsub; set_solver. }
  assert (suite_at out name a r (test_lines ind (reverse added) ++ c)) as Hs'.
  { destruct Hs as [E F N]. split; [done| |done]. rewrite Hout. rewrite E in F. by eapply first_at_swap. }
  eapply suite_settled; [exact Hs'| |done|by apply body_lines|done|].
  - destruct Hp as (lp&E1&E2&E3). exists lp. split; [done|]. split; [done|].
    apply find_last_nl_inv in E1 as (p&w&->&<-&Hw). set (k := length p - length preamble) in *.
    pose proof (suite_text _ _ _ _ _ Hs) as Hl. rewrite Hl in E3.
    assert (k <= length ((p ++ nl :: w) ++ quoted name ++ r)) as Hk by (rewrite !app_length; lia).
    assert (forall y, drop k ((p ++ nl :: w) ++ quoted name ++ r ++ [nl] ++ y) = drop k ((p ++ nl :: w) ++ quoted name ++ r) ++ nl :: y) as Hd.
    { intros y. replace ((p ++ nl :: w) ++ quoted name ++ r ++ [nl] ++ y) with (((p ++ nl :: w) ++ quoted name ++ r) ++ nl :: y) by (by rewrite <- !app_assoc).
      by rewrite drop_app_le. }
    rewrite Hout, Hd. rewrite Hd in E3. apply occurs_more; [|done]. apply (bool_decide_unpack _). by vm_compute.
  - rewrite Forall_forall in *. intros t Ht. apply (Hf t Ht). by destruct (H1 t Ht).
Qed.

Lemma occurs_join t (f : text -> text) ts sep y : t ∈ ts -> (forall u, occurs u (f u)) -> occurs t (join sep (map f ts) ++ y).
Proof.
  intros Ht Hf. apply occurs_app_l'. induction Ht as [t ts|t u ts _ IH]; cbn [map join].
  - destruct (map f ts); [done|]. by apply occurs_app_l'.
  - destruct (map f ts); [destruct IH as [i IH]; apply occurs_at_nil_r in IH as [_ ->]; apply occurs_empty|].
    by do 2 apply occurs_app_r.
Qed.

Lemma unclosed_join (f : text -> text) ts y : (forall t, t ∈ ts -> unclosed (f t ++ ⌜","⌝) /\ unclosed (f t)) -> ts <> [] -> unclosed y ->
  unclosed (join (⌜","⌝ ++ [nl]) (map f ts) ++ nl :: y).
Proof.
  intros Hf Hts Hy. induction ts as [|t ts IH]; [done|]. cbn [map join]. destruct (map f ts) eqn:E.
  - apply unclosed_nl; [|done]. apply Hf. set_solver.
  - rewrite <- E in *. assert ((f t ++ (⌜","⌝ ++ [nl]) ++ join (⌜","⌝ ++ [nl]) (map f ts)) ++ nl :: y =
      (f t ++ ⌜","⌝) ++ nl :: join (⌜","⌝ ++ [nl]) (map f ts) ++ nl :: y) as -> by (by rewrite <- !app_assoc).
    apply unclosed_nl; [apply Hf; set_solver|]. apply IH; [|by destruct ts]. intros u Hu. apply Hf. set_solver.
Qed.

Lemma unclosed_indented ind t : ")"%char ∉ ind -> unclosed t -> unclosed (ind ++ ind ++ ind ++ t).
Proof. intros Hi H Ho. rewrite closing_eq in Ho. do 3 (apply occurs_skip in Ho; [|done]). done. Qed.

Lemma first_fresh c q p z r : c ∉ z -> nl ∉ c :: q -> ~ occurs (c :: q) p -> first_at (c :: q) (p ++ nl :: z ++ (c :: q) ++ r) (length (p ++ nl :: z)).
Proof.
  intros Hz Hn Hp. split; [exists (p ++ nl :: z), r; split; [by rewrite <- !app_assoc|done]|].
  intros j (x&y&E&<-). symmetry in E. apply app_eq_inv in E as [(k&->&E)|(k&->&E)].
  - rewrite !app_length. cbn [length List.length]. destruct k as [|d k].
    + cbn in E. injection E as <- _. exfalso. apply Hn. set_solver.
    + cbn in E. injection E as <- E. cbn [List.length]. symmetry in E. apply app_eq_inv in E as [(m&->&E)|(m&->&E)].
      * rewrite app_length. lia.
      * destruct m as [|e m]; [rewrite app_nil_r; lia|]. cbn in E. injection E as <- _. exfalso. apply Hz. set_solver.
  - exfalso. apply app_eq_inv in E as [(m&Hm&E)|(m&->&E)].
    + destruct m as [|e m].
      * apply Hp. rewrite app_nil_r in Hm. rewrite <- Hm. exists (length x), x, []. by rewrite app_nil_r.
      * cbn in E. injection E as <- _. apply Hn. rewrite Hm. set_solver.
    + apply Hp. apply (occurs_self (c :: q) x m).
Qed.

Lemma repeat_new l name ind ts out : clean name ind ts -> ~ occurs (quoted name) l ->
  add_to_suite l name ind ts = Ok out -> add_to_suite out name ind ts = Ok out.
Proof.
  intros [[Hn Hnc] (Hi&Hi2&Hi3) [H1 H2]] Hno Ho. pose proof (ok_tests _ _ _ _ _ Ho) as Hts.
  assert (exists p y, l = p ++ y /\ out = p ++ new_suite name ind ts ++ y) as (p&y&->&->).
  { revert Ho. unfold add_to_suite. destruct ts as [|t ts]; [done|]. set (us := t :: ts) in *.
    change (suite_pattern name) with (quoted name). rewrite (proj2 (find_first_None _ _) Hno).
    destruct (find_first execute l) as [pos|]; [|done]. destruct (rfind_nl l pos) as [lp|] eqn:E; [|done].
    rewrite build_suite_spec by done. cbn [rbind]. unfold rfind_nl in E. apply find_last_nl_inv in E as (p&w&E&<-&_).
    assert (l = p ++ nl :: w ++ drop (pos + 1) l) as Hl. { rewrite <- (take_drop (pos + 1) l) at 1. rewrite E, <- app_assoc. done. }
    assert (insert_at l (length p) (new_suite name ind us) = p ++ new_suite name ind us ++ nl :: w ++ drop (pos + 1) l) as ->
      by (rewrite Hl at 1; apply insert_at_app).
    intros Ho. exists p, (nl :: w ++ drop (pos + 1) l). split; [done|].
    destruct (p ++ new_suite name ind us ++ _) eqn:E2; [done|]. congruence. }
  clear Ho.
  set (z := ind ++ ind ++ ⌜"runner.add_test_suite("⌝ ++ [nl] ++ ind ++ ind ++ ind).
  set (J := join (⌜","⌝ ++ [nl]) (map (fun t => ind ++ ind ++ ind ++ t) ts)).
  set (b := J ++ nl :: ind ++ ind).
  set (c := b ++ ⌜");"⌝ ++ nl :: y).
  assert (p ++ new_suite name ind ts ++ y = (p ++ nl :: z) ++ quoted name ++ [] ++ [nl] ++ c) as E.
  { unfold z, c, b, new_suite. fold J. by repeat first [rewrite <- app_assoc | progress cbn [app]]. }
  assert (nl ∉ quoted name) as Hq.
  { unfold quoted. rewrite !elem_of_app. intros [H|[H|H]]; [|done|]; revert H; apply (bool_decide_unpack _); by vm_compute. }
  assert (quote ∉ z) as Hz.
  { unfold z. rewrite !elem_of_app. intros H. destruct_or! H; try done; revert H; apply (bool_decide_unpack _); by vm_compute. }
  assert (suite_at (p ++ new_suite name ind ts ++ y) name (p ++ nl :: z) [] c) as Hs.
  { split; [done| |by rewrite app_nil_r]. rewrite E, <- app_assoc. unfold quoted in Hq |- *. cbn [list_ascii_of_string app] in Hq |- *.
    apply (first_fresh quote (name ++ [quote; ","%char]) p z (nl :: c)); [done|done|].
    intros H. apply Hno. by apply occurs_app_l'. }
  assert (unclosed b) as Hb.
  { unfold b, J. apply unclosed_join; [|done|].
    - intros t Ht. rewrite Forall_forall in H2. specialize (H2 t Ht). rewrite <- !app_assoc. split; [by apply unclosed_line|by apply unclosed_indented].
    - intros H. rewrite closing_eq in H. apply occurs_skip in H; [|done]. destruct H as (i&x&x'&H&_). apply Hi2. rewrite H. set_solver. }
  eapply suite_settled; [exact Hs| |by rewrite app_nil_r; apply unclosed_quoted|by apply body_intro|done|].
  - rewrite E. apply opened_placed. exists (p ++ [nl] ++ ind ++ ind ++ ⌜"runner."⌝), (ind ++ ind ++ ind). split; [|split].
    + unfold z. by rewrite <- !app_assoc.
    + rewrite !elem_of_app. tauto.
    + by destruct p.
  - rewrite Forall_forall. intros t Ht. do 2 apply occurs_app_r. change ([nl] ++ b) with ([nl] ++ J ++ nl :: ind ++ ind). apply occurs_app_r.
    apply occurs_join; [done|]. intros u. do 3 apply occurs_app_r. exists 0, [], []. by rewrite app_nil_r.
Qed.

Lemma suite_parts l name : nl ∉ name -> ~ occurs (quoted name) l \/ (exists a r c, suite_at l name a r c) \/
  (exists a r, l = a ++ quoted name ++ r /\ nl ∉ r /\ first_at (quoted name) l (length a)).
Proof.
  intros Hn. destruct (first_or_none (quoted name) l) as [H|(a&y&->&H)]; [by left|]. right.
  destruct (no_nl_split y) as [Hy|(r&c&->&Hr)]; [right; by exists a, y|]. left. exists a, r, c. split; [done|done|].
  rewrite elem_of_app. intros [Hx|Hx]; [|done]. revert Hx. unfold quoted. rewrite !elem_of_app. intros [Hx|[Hx|Hx]]; [|done|]; revert Hx; apply (bool_decide_unpack _); by vm_compute.
Qed.

Lemma repeat_all l name ind ts out : clean name ind ts -> (forall a r c, suite_at l name a r c -> unclosed (quoted name ++ r)) ->
  add_to_suite l name ind ts = Ok out -> add_to_suite out name ind ts = Ok out.
Proof.
  intros Hc Hu Ho. destruct (suite_parts l name (proj1 (clean_name _ _ _ Hc))) as [H|[(a&r&c&H)|(a&r&->&Hr&H)]].
  - by eapply repeat_new.
  - eapply repeat_existing; [done|exact H| |done]. by eapply Hu.
  - exfalso. revert Ho. unfold add_to_suite. destruct ts as [|t ts]; [done|]. change (suite_pattern name) with (quoted name).
    rewrite (find_first_at _ _ _ H). destruct (rfind_nl _ _); [|done]. destruct (decide _); [|done]. destruct (find_from _ preamble _); [|done].
    assert (nl ∉ quoted name ++ r) as Hn.
    { rewrite elem_of_app. intros [Hx|Hx]; [|done]. destruct Hc as [[Hn _] _ _].
      revert Hx. unfold quoted. rewrite !elem_of_app. intros [Hx|[Hx|Hx]]; [|done|]; revert Hx; apply (bool_decide_unpack _); by vm_compute. }
    by rewrite (find_nl_none a (quoted name ++ r) Hn).
Qed.

Lemma suite_outcome l name ind ts : Forall one_line ts -> nl ∉ name ->
  (ts = [] /\ add_to_suite l name ind ts = Throw LogicError) \/
  (ts <> [] /\ (add_to_suite l name ind ts = Throw RuntimeError \/ exists out, add_to_suite l name ind ts = Ok out)).
Proof.
  intros Hf Hn. destruct ts as [|t ts]; [by left|]. right. split; [done|]. unfold add_to_suite.
  repeat first [progress (rewrite build_suite_spec by done) | progress cbn [rbind] | match goal with |- context [match ?x with _ => _ end] => destruct x end]; by eauto.
Qed.

Lemma suite_nowhere l name ind ts : ts <> [] -> ~ occurs (quoted name) l -> ~ occurs ⌜"runner.execute"⌝ l -> add_to_suite l name ind ts = Throw RuntimeError.
Proof.
  intros Hts H1 H2. unfold add_to_suite. destruct ts; [done|]. change (suite_pattern name) with (quoted name).
  rewrite (proj2 (find_first_None _ _) H1). change execute with ⌜"runner.execute"⌝. by rewrite (proj2 (find_first_None _ _) H2).
Qed.
