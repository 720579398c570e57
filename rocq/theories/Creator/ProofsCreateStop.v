(** Proofs about the creation of tests which fails (C116). *)
From Coq Require Import Ascii String.
From stdpp Require Import list.
From Verif.Base Require Import Outcome ListLemmas.
From Verif.Text Require Import Model Spec Proofs.
From Verif.Prune Require Model.
From Verif.Edit Require Import Model ModelSuite.
From Verif.Select Require Import Model Spec Proofs.
From Verif.Creator Require Import ModelHeader SpecHeader ProofsHeader ModelCreate SpecCreate ProofsCreate.
Local Open Scope res_scope.
Local Notation "⌜ s ⌝" := (list_ascii_of_string s%string).

Lemma amend_each f l r : amend f l = AllOf r \/ amend f l = PartOf r -> Forall2 (fun x y => y = x \/ f x = Ok y) l r.
Proof.
  revert r. induction l as [|x l IH]; intros r; cbn [amend].
  - intros [E|E]; [injection E as <-; constructor|done].
  - destruct (f x) as [y|e| |] eqn:E.
    + destruct (amend f l) as [r'|r'|] eqn:El; intros [H|H]; try done; injection H as <-; constructor; try (by right); apply IH; auto.
    + intros [H|H]; [done|]. injection H as <-. constructor; [by left|]. clear IH. induction l; constructor; [by left|done].
    + by intros [H|H].
    + by intros [H|H].
Qed.
Lemma amend_project_each p f ms p' : end_of (amend_project p f ms) = Some p' ->
  includes p' = includes p /\ Forall2 (fun x y => y = x \/ f x = Ok y) (mains p) (mains p').
Proof.
  unfold amend_project. destruct (amend f (mains p)) as [l|l|] eqn:E; cbn; intros H; [| |done]; injection H as <-; cbn; (split; [done|]); apply amend_each; auto.
Qed.
Lemma edits_app {A} (f : text -> A -> res text) l xs ys l' l'' : edits f l xs = Ok l' -> edits f l' ys = Ok l'' -> edits f l (xs ++ ys) = Ok l''.
Proof.
  revert l. induction xs as [|x xs IH]; intros l; cbn; [by intros [= ->]|]. destruct (f l x) as [l1| | |]; cbn; try done. apply IH.
Qed.

Section creation.
  Context (tests host : path) (camel : text) (templates : text -> option text) (transform : text -> res text).
  Local Notation out e := (output_file host camel e).
  Local Notation register := (register tests).
  Local Notation create_file := (create_file tests host camel templates transform).
  Local Notation create_files := (create_files tests host camel templates transform).
  Local Notation create := (create tests host camel templates transform).
  Local Notation listed l e := (add_to_cmake l ⌜"target_sources("⌝ ⌜")
"⌝ (⌜"${TestDir}/"⌝ ++ slashed (out e))).
  Local Notation included l e := (add_include l (slashed (out e))).

  Definition came_from (es : list text) (p p' : project) : Prop :=
    (exists hs, Forall (.∈ es) hs /\ edits (fun l e => included l e) (includes p) hs = Ok (includes p')) /\
    Forall2 (fun m m' => fst m' = fst m /\ exists ss, Forall (.∈ es) ss /\ edits (fun l e => listed l e) (snd m) ss = Ok (snd m')) (mains p) (mains p').

  Lemma came_refl es p : came_from es p p.
  Proof.
    split; [by exists []|]. induction (mains p) as [|m ms IH]; constructor; [|done]. split; [done|]. by exists [].
  Qed.
  Lemma came_trans es p p' p'' : came_from es p p' -> came_from es p' p'' -> came_from es p p''.
  Proof.
    intros [(hs & H1 & H2) H3] [(hs' & H1' & H2') H3']. split.
    - exists (hs ++ hs'). split; [by apply Forall_app|]. by eapply edits_app.
    - eapply Forall2_transitive; [|exact H3|exact H3']. intros m m' m'' [E (ss & S1 & S2)] [E' (ss' & S1' & S2')]. split; [congruence|].
      exists (ss ++ ss'). split; [by apply Forall_app|]. by eapply edits_app.
  Qed.
  Lemma came_mono es es' p p' : es ⊆ es' -> came_from es p p' -> came_from es' p p'.
  Proof.
    intros Hs [(hs & H1 & H2) H3]. split.
    - exists hs. split; [|done]. eapply Forall_impl; [exact H1|]. intros x Hx. by apply Hs.
    - eapply Forall2_impl; [exact H3|]. intros m m' [E (ss & S1 & S2)]. split; [done|]. exists ss. split; [|done]. eapply Forall_impl; [exact S1|]. intros x Hx. by apply Hs.
  Qed.
  Lemma register_came p e p' : end_of (register p (out e)) = Some p' -> came_from [e] p p'.
  Proof.
    unfold ModelCreate.register. pose proof (slashed_generic (out e)) as Hs. rewrite Hs. destruct (decide _).
    - destruct (Text.Model.find_first _ _); [intros E; injection E as <-; apply came_refl|].
      destruct (add_include _ _) as [u| | |] eqn:Ei; cbn; intros E; try done; injection E as <-; [|apply came_refl].
      split; [|exact (proj2 (came_refl [e] p))]. exists [e]. split; [by repeat constructor|]. cbn [edits]. rewrite Ei. done.
    - destruct (decide _); [|intros E; injection E as <-; apply came_refl]. intros [Hi Hm]%amend_project_each. split; [exists []; by rewrite Hi|].
      eapply Forall2_impl; [exact Hm|]. intros m m' [-> |H]; [split; [done|]; by exists []|]. cbn beta in H.
      destruct (add_to_cmake _ _ _ _) as [c| | |] eqn:Ec; cbn [rbind] in H; try done. injection H as <-. split; [done|]. exists [e]. split; [by repeat constructor|].
      cbn [edits snd]. rewrite Ec. done.
  Qed.
  Lemma file_came p e p' : end_of (create_file p e) = Some p' -> came_from [e] p p'.
  Proof.
    unfold ModelCreate.create_file. destruct (files p (out e)); [intros E; injection E as <-; apply came_refl|].
    assert (forall u, end_of (register (write p (out e) u) (out e)) = Some p' -> came_from [e] p p') as Hr by (intros u H; exact (register_came _ _ _ H)).
    destruct (templates e) as [[|c t]|]; [apply Hr| |intros E; injection E as <-; apply came_refl].
    destruct (transform (c :: t)); [apply Hr| |done|done]. intros E. injection E as <-. exact (came_refl [e] p).
  Qed.
  Lemma files_came es : forall p ms p', end_of (create_files p es ms) = Some p' -> came_from es p p'.
  Proof.
    induction es as [|e es IH]; intros p ms p'; cbn [ModelCreate.create_files]; [intros E; injection E as <-; apply came_refl|].
    pose proof (file_came p e) as Hf. assert ([e] ⊆ e :: es) as Hs by (intros x ->%elem_of_list_singleton; by left).
    destruct (create_file p e) as [p1 m|p1|] eqn:E; [|intros H; apply (came_mono [e]); [done|]; by apply Hf|done].
    intros H%IH. apply (came_trans _ p p1); [apply (came_mono [e]); [done|]; by apply Hf|]. apply (came_mono es); [|done]. intros x Hx. by right.
  Qed.
  Lemma create_came p es suite ind cs p' : end_of (create p es suite ind cs) = Some p' ->
    (exists hs, Forall (.∈ es) hs /\ edits (fun l e => included l e) (includes p) hs = Ok (includes p')) /\
    Forall2 (fun m m' => (fst m' = fst m \/ add_to_suite (fst m) suite ind cs = Ok (fst m')) /\
      exists ss, Forall (.∈ es) ss /\ edits (fun l e => listed l e) (snd m) ss = Ok (snd m')) (mains p) (mains p').
  Proof.
    unfold ModelCreate.create. pose proof (files_came es p []) as Hc. destruct (create_files p es []) as [p1 ms|p1|]; [|intros E|done].
    - intros [Hi Hm]%amend_project_each. destruct (Hc p1 eq_refl) as [H1 H2]. rewrite Hi. split; [done|]. eapply Forall2_transitive; [|exact H2|exact Hm].
      intros m m' m'' [E Hs] [-> |H]; [split; [by left|done]|]. cbn beta in H. destruct (add_to_suite _ _ _ _) as [t'| | |] eqn:Et; cbn [rbind] in H; try done.
      injection H as <-. cbn [fst snd]. rewrite E in Et. split; [by right|done].
    - destruct (Hc p' E) as [H1 H2]. split; [done|]. eapply Forall2_impl; [exact H2|]. intros m m' [Em Hs]. split; [by left|done].
  Qed.
End creation.
