(** Proofs about the files of a run. *)
From Coq Require Import Ascii String.
From stdpp Require Import list gmap strings.
From Verif.Base Require Import Outcome Order ListLemmas.
From Verif.Text Require Import Model Spec Proofs.
From Verif.SoftUpdate Require Proofs.
From Verif.Failure Require Model Proofs.
From Verif.Prune Require Model.
From Verif.Outputs Require Import Model Spec.
Local Open Scope res_scope.
Local Notation "⌜ s ⌝" := (list_ascii_of_string s%string).
Local Notation length := List.length.

(** ** Diagnostics *)
Lemma subst_underscored t : subst_char " " ⌜"_"⌝ t = underscored t.
Proof.
  induction t as [|c t IH]; [done|]. unfold subst_char, underscored in *. cbn [map concat]. rewrite IH. by destruct (decide (c = " "%char)).
Qed.

Lemma diagnostics_path_ok project suite source m k pl :
  diagnostics_path project suite source m k pl = Ok (diagnostics_dir project ++ [underscored suite; diagnostics_name source m k pl]).
Proof. unfold diagnostics_path. change ⌜" "⌝ with [" "%char]. rewrite replace_all_char by lia. cbn [rbind]. by rewrite subst_underscored. Qed.

Lemma last_differs {A} (p q : list A) x y : p ++ [x] = q ++ [y] -> x = y /\ p = q.
Proof. intros H. apply app_inj_tail in H. tauto. Qed.

Lemma name_inj s s' m m' k k' pl : s ++ ⌜"_"⌝ ++ to_tag m ++ suffix_of k ++ platform_text pl ++ ⌜".txt"⌝ =
  s' ++ ⌜"_"⌝ ++ to_tag m' ++ suffix_of k' ++ platform_text pl ++ ⌜".txt"⌝ -> s = s' /\ m = m' /\ k = k'.
Proof.
  intros H. rewrite !app_assoc in H. apply app_inv_tail in H. apply app_inv_tail in H. rewrite <-!app_assoc in H.
  assert (k = k') as ->.
  { destruct k, k'; try done; exfalso.
    - assert (forall z : text, exists y, z ++ ⌜"_"⌝ ++ to_tag m ++ suffix_of Messages = y ++ ["t"%char]) as HA
        by (intros z; exists (z ++ ⌜"_"⌝ ++ to_tag m ++ ⌜"Outpu"⌝); by rewrite <-!app_assoc).
      assert (forall z : text, exists y, z ++ ⌜"_"⌝ ++ to_tag m' ++ suffix_of Exceptions = y ++ ["s"%char]) as HB
        by (intros z; exists (z ++ ⌜"_"⌝ ++ to_tag m' ++ ⌜"Exception"⌝); by rewrite <-!app_assoc).
      destruct (HA s) as [y1 E1], (HB s') as [y2 E2]. rewrite E1, E2 in H. by apply last_differs in H as [? _].
    - assert (forall z : text, exists y, z ++ ⌜"_"⌝ ++ to_tag m' ++ suffix_of Messages = y ++ ["t"%char]) as HA
        by (intros z; exists (z ++ ⌜"_"⌝ ++ to_tag m' ++ ⌜"Outpu"⌝); by rewrite <-!app_assoc).
      assert (forall z : text, exists y, z ++ ⌜"_"⌝ ++ to_tag m ++ suffix_of Exceptions = y ++ ["s"%char]) as HB
        by (intros z; exists (z ++ ⌜"_"⌝ ++ to_tag m ++ ⌜"Exception"⌝); by rewrite <-!app_assoc).
      destruct (HA s') as [y1 E1], (HB s) as [y2 E2]. rewrite E1, E2 in H. by apply last_differs in H as [? _]. }
  rewrite !app_assoc in H. apply app_inv_tail in H. rewrite <-!app_assoc in H.
  assert (forall (z : text) mm, exists y c, z ++ ⌜"_"⌝ ++ to_tag mm = y ++ [c] /\ c = match mm with Standard => "_"%char | FalsePositive => "P"%char | FalseNegative => "N"%char end) as HC.
  { intros z []; [exists z, "_"%char|exists (z ++ ⌜"_F"⌝), "P"%char|exists (z ++ ⌜"_F"⌝), "N"%char]; (split; [rewrite <-?app_assoc; reflexivity|reflexivity]). }
  assert (m = m') as ->.
  { destruct (HC s m) as (y1&c1&E1&Hc1), (HC s' m') as (y2&c2&E2&Hc2). rewrite E1, E2 in H. apply last_differs in H as [H _]. rewrite Hc1, Hc2 in H.
    by destruct m, m'. }
  split; [|done]. by apply app_inv_tail in H.
Qed.

Theorem diagnostics_apart project suite suite' source source' m m' k k' pl p :
  diagnostics_path project suite source m k pl = Ok p -> diagnostics_path project suite' source' m' k' pl = Ok p ->
  underscored suite = underscored suite' /\ stem_of source = stem_of source' /\ m = m' /\ k = k'.
Proof.
  rewrite !diagnostics_path_ok. intros [= <-] [= H]. apply app_inv_head in H. injection H as H1 H2. split; [done|].
  unfold diagnostics_name in H2. exact (name_inj _ _ _ _ _ _ _ (eq_sym H2)).
Qed.

(** *** What is written *)
Lemma versioned_same fs f t : versioned_write fs f t !! f = after_write (fs !! f) t.
Proof.
  unfold versioned_write, after_write. destruct t, (fs !! f) eqn:E; try apply lookup_insert. done.
Qed.
Lemma versioned_other fs f t g : g <> f -> versioned_write fs f t !! g = fs !! g.
Proof. intros H. unfold versioned_write. destruct t, (fs !! f); by rewrite ?lookup_insert_ne. Qed.

Lemma write_other fs e f : f ∉ files_of e -> write_versioned_output fs e !! f = fs !! f.
Proof.
  intros H. unfold files_of in H. rewrite !elem_of_cons, elem_of_nil in H. unfold write_versioned_output. destruct (critical e); [done|].
  rewrite !versioned_other; [done| |]; tauto.
Qed.
Lemma write_all_other l : forall fs f, f ∉ concat (map files_of l) -> write_all fs l !! f = fs !! f.
Proof.
  induction l as [|e l IH]; intros fs f H; [done|]. unfold write_all in *. cbn [fold_left map concat] in *.
  rewrite not_elem_of_app in H. rewrite IH by tauto. apply write_other. tauto.
Qed.

Theorem written fs l e : NoDup (concat (map files_of l)) -> e ∈ l ->
  (critical e = true -> forall f, f ∈ files_of e -> write_all fs l !! f = fs !! f) /\
  (critical e = false -> write_all fs l !! diagnostics_file e = after_write (fs !! diagnostics_file e) (diagnostics e) /\
     write_all fs l !! exceptions_file e = after_write (fs !! exceptions_file e) (exceptions e)).
Proof.
  revert fs. induction l as [|x l IH]; intros fs Hnd Hin; [by apply elem_of_nil in Hin|].
  cbn [map concat] in Hnd. apply NoDup_app in Hnd as (H1&H2&H3). apply elem_of_cons in Hin as [->|Hin].
  - unfold write_all. cbn [fold_left].
    assert (forall f, f ∈ files_of x -> fold_left write_versioned_output l (write_versioned_output fs x) !! f = write_versioned_output fs x !! f) as HL.
    { intros f Hf. apply write_all_other. by apply H2. }
    assert (diagnostics_file x <> exceptions_file x) as Hne.
    { unfold files_of in H1. rewrite NoDup_cons in H1. destruct H1 as [H1 _]. intros E. apply H1. rewrite E. by left. }
    split.
    + intros Hc f Hf. rewrite HL by done. unfold write_versioned_output. by rewrite Hc.
    + intros Hc. rewrite !HL by (unfold files_of; rewrite !elem_of_cons; tauto). unfold write_versioned_output. rewrite Hc.
      split; [rewrite versioned_other by done; apply versioned_same|]. rewrite versioned_same. by rewrite versioned_other.
  - assert (forall f, f ∈ files_of e -> write_versioned_output fs x !! f = fs !! f) as HX.
    { intros f Hf. apply write_other. intros Hx. apply (H2 f Hx). apply elem_of_list_In, in_concat. exists (files_of e).
      split; [apply in_map; by apply elem_of_list_In|by apply elem_of_list_In]. }
    destruct (IH (write_versioned_output fs x) H3 Hin) as [A B]. unfold write_all in *. cbn [fold_left]. split.
    + intros Hc f Hf. rewrite A by done. by apply HX.
    + intros Hc. destruct (B Hc) as [B1 B2]. rewrite B1, B2, !HX; [done| |]; unfold files_of; rewrite !elem_of_cons; tauto.
Qed.

(** ** Summaries *)
Lemma to_file_spec fs written f t g : f <> [] ->
  (to_file (fs, written) f t).1 !! g = (if decide (g = f) then Some ((if bool_decide (f ∈ written) then default [] (fs !! f) else []) ++ t) else fs !! g) /\
  (forall h, h ∈ (to_file (fs, written) f t).2 <-> h = f \/ h ∈ written).
Proof.
  intros Hf. unfold to_file. destruct f as [|x f]; [done|]. destruct (bool_decide_reflect ((x :: f) ∈ written)) as [Hin|Hnin]; cbn [fst snd].
  - split; [|intros h; split; [tauto|by intros [->|]]]. destruct (decide (g = x :: f)) as [->|Hne]; [apply lookup_insert|by apply lookup_insert_ne].
  - split; [|intros h; by rewrite elem_of_cons]. destruct (decide (g = x :: f)) as [->|Hne]; [apply lookup_insert|by apply lookup_insert_ne].
Qed.

Lemma process_out u l : forall t f, f <> [] -> let r := fold_left (process_test u) l t in
  (out r).1 !! f = (if decide (summaries_for f l = []) then (out t).1 !! f
                    else Some ((if bool_decide (f ∈ (out t).2) then default [] ((out t).1 !! f) else []) ++ concat (summaries_for f l))) /\
  (f ∈ (out r).2 <-> f ∈ (out t).2 \/ summaries_for f l <> []).
Proof.
  induction l as [|x l IH]; intros t f Hf; cbv zeta; cbn [fold_left].
  - cbn. split; [done|]. tauto.
  - destruct (IH (process_test u t x) f Hf) as [A B]. cbv zeta in A, B.
    assert (out (process_test u t x) = to_file (out t) (summary_file x) (summary_text x)) as Eo by done.
    rewrite Eo in A, B. destruct (out t) as [fs wr]. unfold summaries_for in *. cbn [List.filter map fst snd].
    destruct (bool_decide_reflect (summary_file x = f)) as [Ef|Hne].
    + cbn [map]. destruct (to_file_spec fs wr f (summary_text x) f Hf) as [C D]. rewrite Ef in A, B. rewrite decide_True in C by done. rewrite C in A.
      rewrite A. split.
      * rewrite (decide_False (P := _ :: _ = [])) by done. rewrite (bool_decide_true (f ∈ (to_file _ _ _).2)) by (apply D; by left).
        cbn [default from_option id concat]. destruct (decide _) as [E|_].
        -- rewrite E. cbn [concat]. by rewrite app_nil_r.
        -- unfold default, from_option, id. by rewrite <-app_assoc.
      * rewrite B. split; [|intros _; left; apply D; by left]. intros _. by right.
    + destruct (decide (summary_file x = [])) as [E0|Hne0].
      * rewrite E0 in A, B. unfold to_file in A, B. cbn [fst snd] in A, B. split; [exact A|exact B].
      * destruct (to_file_spec fs wr (summary_file x) (summary_text x) f Hne0) as [C D]. rewrite decide_False in C by congruence.
        rewrite C in A. assert (f ∈ (to_file (fs, wr) (summary_file x) (summary_text x)).2 <-> f ∈ wr) as Hw by (rewrite D; split; [intros [E|E]; [congruence|done]|tauto]).
        rewrite A. split; [|by rewrite B, Hw]. destruct (decide _); [done|]. rewrite (bool_decide_ext _ _ Hw). done.
Qed.

Theorem summaries u fs l f : f <> [] ->
  (out (process_all u fs l)).1 !! f = (if decide (summaries_for f l = []) then fs !! f else Some (concat (summaries_for f l))).
Proof.
  intros Hf. unfold process_all. destruct (process_out u l (Tracker (fs, []) [] [] []) f Hf) as [A _]. cbv zeta in A. rewrite A. cbn [out fst snd].
  destruct (decide _); [done|]. rewrite bool_decide_false by apply not_elem_of_nil. done.
Qed.

Lemma process_lists u l : forall t, let r := fold_left (process_test u) l t in
  executed_tests r = executed_tests t ++ map test_file l /\ failed_tests r = failed_tests t ++ map test_file (List.filter failed l).
Proof.
  induction l as [|x l IH]; intros t; cbv zeta; cbn [fold_left]; [by cbn; rewrite !app_nil_r|].
  destruct (IH (process_test u t x)) as [-> ->]. cbn [process_test executed_tests failed_tests map List.filter]. split; [by rewrite <-app_assoc|].
  unfold failed at 2. destruct (bool_decide_reflect (soft_failures x = 0 /\ critical_failures x = 0)) as [H|H];
  destruct (bool_decide_reflect (0 < soft_failures x \/ 0 < critical_failures x)) as [H'|H']; try lia; [done|]. cbn [map]. by rewrite <-app_assoc.
Qed.

Theorem lists u fs l : executed_tests (process_all u fs l) = map test_file l /\ failed_tests (process_all u fs l) = map test_file (List.filter failed l).
Proof. apply (process_lists u l (Tracker (fs, []) [] [] [])). Qed.

Lemma process_updates l : forall t, NoDup (updateables t).*1 -> let r := fold_left (process_test true) l t in
  NoDup (updateables r).*1 /\
  (forall w, w ∈ (updateables r).*1 <-> w ∈ (updateables t).*1 \/ exists x p, x ∈ l /\ outdated x w p) /\
  (forall w p, (w, p) ∈ updateables r -> (w, p) ∈ updateables t \/ exists x, x ∈ l /\ outdated x w p).
Proof.
  induction l as [|x l IH]; intros t Hnd; cbv zeta; cbn [fold_left].
  - split; [done|]. split; [|by left]. intros w. split; [by left|]. intros [?|(x&p&H&_)]; [done|]. by apply elem_of_nil in H.
  - set (t' := process_test true t x).
    assert (updateables t' = updateables t /\ (forall w p, ~ outdated x w p) \/
      exists w p, outdated x w p /\ updateables t' = insert_update (updateables t) w p) as Ht'.
    { unfold t', process_test. cbn [updateables]. unfold outdated. destruct (bool_decide_reflect (soft_failures x = 0)) as [H|H].
      - left. split; [done|]. intros w p [? _]. lia.
      - destruct (working_copy x) as [w|], (predictions x) as [p|]; try (left; split; [done|]; by intros ? ? (_&?&?)).
        right. exists w, p. split; [|done]. split; [lia|done]. }
    destruct Ht' as [[E Hno]|(w0&p0&Hout&E)].
    + destruct (IH t') as (A&B&C); [by rewrite E|]. split; [done|]. split.
      * intros w. rewrite B, E. split.
        -- intros [?|(y&p&H1&H2)]; [by left|]. right. exists y, p. split; [by right|done].
        -- intros [?|(y&p&H1&H2)]; [by left|]. right. apply elem_of_cons in H1 as [->|H1]; [by apply Hno in H2|]. by exists y, p.
      * intros w p H. apply C in H. rewrite E in H. destruct H as [?|(y&H1&H2)]; [by left|]. right. exists y. split; [by right|done].
    + assert (NoDup (updateables t').*1 /\ (forall w, w ∈ (updateables t').*1 <-> w ∈ (updateables t).*1 \/ w = w0) /\
        (forall w p, (w, p) ∈ updateables t' -> (w, p) ∈ updateables t \/ (w = w0 /\ p = p0))) as (N1&N2&N3).
      { rewrite E. unfold insert_update. destruct (bool_decide_reflect (w0 ∈ (updateables t).*1)) as [Hin|Hnin].
        - split; [done|]. split; [|by left]. intros w. split; [by left|]. intros [?|W]; [done|by rewrite W].
        - split; [|split].
          + rewrite fmap_app. apply NoDup_app. split; [done|]. split; [|apply NoDup_singleton]. intros w Hw Hw'. cbn in Hw'.
            apply elem_of_list_singleton in Hw'. by subst w.
          + intros w. rewrite fmap_app, elem_of_app. cbn. by rewrite elem_of_list_singleton.
          + intros w p H. apply elem_of_app in H as [?|H]; [by left|]. apply elem_of_list_singleton in H. injection H as -> ->. by right. }
      destruct (IH t' N1) as (A&B&C). split; [done|]. split.
      * intros w. rewrite B, N2. split.
        -- intros [[?|W]|(y&p&H1&H2)]; [by left| |].
           ++ right. exists x, p0. split; [by left|by rewrite W].
           ++ right. exists y, p. split; [by right|done].
        -- intros [?|(y&p&H1&H2)]; [tauto|]. apply elem_of_cons in H1 as [->|H1]; [|right; by exists y, p].
           left. right. destruct H2 as (_&H2&_), Hout as (_&H3&_). congruence.
      * intros w p H. apply C in H as [H|(y&H1&H2)]; [|right; exists y; split; [by right|done]].
        apply N3 in H as [?|[W1 W2]]; [by left|]. right. exists x. split; [by left|by rewrite W1, W2].
Qed.

Theorem updates fs l : let r := updateables (process_all true fs l) in
  NoDup r.*1 /\ (forall w, w ∈ r.*1 <-> exists x p, x ∈ l /\ outdated x w p) /\ (forall w p, (w, p) ∈ r -> exists x, x ∈ l /\ outdated x w p).
Proof.
  cbv zeta. destruct (process_updates l (Tracker (fs, []) [] [] [])) as (A&B&C); [constructor|]. split; [done|]. split.
  - intros w. unfold process_all. rewrite B. split; [|tauto]. intros [H|?]; [|done]. by apply elem_of_nil in H.
  - intros w p H. apply C in H as [H|?]; [|done]. by apply elem_of_nil in H.
Qed.
Lemma no_updates l : forall t, updateables (fold_left (process_test false) l t) = updateables t.
Proof. induction l as [|x l IH]; intros t; cbn [fold_left]; [done|]. by rewrite IH. Qed.
