(** Proofs about the creation of tests (C116). *)
From Coq Require Import Ascii String.
From stdpp Require Import list.
From Verif.Base Require Import Outcome ListLemmas.
From Verif.Text Require Import Model Spec Proofs.
From Verif.Prune Require Model.
From Verif.SoftUpdate Require Model Proofs.
From Verif.Edit Require Import Model ModelSuite SpecSuite ProofsSuite ProofsSuiteNew.
From Verif.Select Require Import Model Spec Proofs.
From Verif.Creator Require Import ModelHeader SpecHeader ProofsHeader ModelCreate SpecCreate.
Local Open Scope res_scope.
Local Notation "⌜ s ⌝" := (list_ascii_of_string s%string).
Local Notation length := List.length.

Lemma amend_all f l r : amend f l = AllOf r <-> Forall2 (fun x y => f x = Ok y) l r.
Proof.
  revert r. induction l as [|x l IH]; intros r; cbn [amend].
  - split; [intros E; injection E as <-; constructor|]. intros H. by inversion H.
  - destruct (f x) as [y| | |] eqn:E.
    + destruct (amend f l) as [r'|r'|] eqn:El.
      * split; [intros H; injection H as <-; constructor; [done|by apply IH]|]. intros H. inversion H as [|? y' ? r0 H1 H2]; subst.
        apply IH in H2. injection H2 as <-. congruence.
      * split; [done|]. intros H. inversion H as [|? y' ? r0 H1 H2]; subst. by apply IH in H2.
      * split; [done|]. intros H. inversion H as [|? y' ? r0 H1 H2]; subst. by apply IH in H2.
    + split; [done|]. intros H. inversion H; subst. congruence.
    + split; [done|]. intros H. inversion H; subst. congruence.
    + split; [done|]. intros H. inversion H; subst. congruence.
Qed.

Lemma amend_complete p f ms p' ms' : amend_project p f ms = Complete p' ms' <->
  ms' = ms /\ files p' = files p /\ includes p' = includes p /\ Forall2 (fun x y => f x = Ok y) (mains p) (mains p').
Proof.
  unfold amend_project. destruct (amend f (mains p)) as [l|l|] eqn:E.
  - rewrite amend_all in E. split; [intros H; injection H as <- <-; done|]. intros (-> & Hf & Hi & Hm). apply amend_all in E, Hm. rewrite Hm in E.
    injection E as <-. destruct p' as [f' i' m']. cbn in *. by subst.
  - split; [done|]. intros (_ & _ & _ & H). apply amend_all in H. congruence.
  - split; [done|]. intros (_ & _ & _ & H). apply amend_all in H. congruence.
Qed.
Lemma amend_files p f ms p' : end_of (amend_project p f ms) = Some p' -> files p' = files p.
Proof. unfold amend_project. destruct (amend f (mains p)); cbn; intros E; by simplify_eq/=. Qed.

Lemma chosen_ext (P Q : text -> Prop) es xs : (forall e, e ∈ es -> P e <-> Q e) -> chosen P es xs -> chosen Q es xs.
Proof.
  intros H Hc. induction Hc as [|e es xs He Hc IH|e es xs He Hc IH]; [constructor| |].
  - apply chosen_take; [apply H; [by left|done]|]. apply IH. intros e' He'. apply H. by right.
  - apply chosen_skip; [intros Hq; apply He, H; [by left|done]|]. apply IH. intros e' He'. apply H. by right.
Qed.

Section creation.
  Context (tests host : path) (camel : text) (templates : text -> option text) (transform : text -> res text).
  Local Notation out e := (output_file host camel e).
  Local Notation register := (register tests).
  Local Notation create_file := (create_file tests host camel templates transform).
  Local Notation create_files := (create_files tests host camel templates transform).
  Local Notation create := (create tests host camel templates transform).

  Lemma register_files p o p' : end_of (register p o) = Some p' -> files p' = files p.
  Proof.
    unfold ModelCreate.register. destruct (decide _).
    - destruct (Text.Model.find_first _ _); [intros E; by injection E as <-|]. destruct (add_include _ _); intros E; by simplify_eq/=.
    - destruct (decide _); [apply amend_files|]. intros E. by injection E as <-.
  Qed.

  Lemma file_kept p e p' q t : end_of (create_file p e) = Some p' -> files p q = Some t -> files p' q = Some t.
  Proof.
    unfold ModelCreate.create_file. intros H Hq. destruct (files p (out e)) as [old|] eqn:Ho; [by injection H as <-|].
    assert (Hw : forall u, files (write p (out e) u) q = Some t).
    { intros u. cbn. destruct (decide (q = out e)) as [->|]; [congruence|done]. }
    destruct (templates e) as [[|c t']|]; [| |by injection H as <-].
    - rewrite (register_files _ _ _ H). apply Hw.
    - destruct (transform (c :: t')); [|injection H as <-; apply Hw|done|done]. rewrite (register_files _ _ _ H). apply Hw.
  Qed.
  Lemma files_kept es : forall p ms p' q t, end_of (create_files p es ms) = Some p' -> files p q = Some t -> files p' q = Some t.
  Proof.
    induction es as [|e es IH]; intros p ms p' q t H Hq; cbn [ModelCreate.create_files] in H; [by injection H as <-|].
    pose proof (file_kept p e) as Hk. destruct (create_file p e) as [p1 m|p1|] eqn:E; [|by apply (Hk p')|done].
    apply (IH p1 (ms ++ m)); [done|]. by apply Hk.
  Qed.
  Lemma create_kept p es suite ind cs p' q t : end_of (create p es suite ind cs) = Some p' -> files p q = Some t -> files p' q = Some t.
  Proof.
    unfold ModelCreate.create. pose proof (files_kept es p []) as Hk. destruct (create_files p es []) as [p1 ms|p1|]; intros H Hq; [|by apply (Hk p')|done].
    rewrite (amend_files _ _ _ _ H). by apply Hk.
  Qed.

  (** What a complete creation of one file does *)
  Definition text_for (e u : text) : Prop := exists t, templates e = Some t /\ (t = [] /\ u = [] \/ t <> [] /\ transform t = Ok u).

  Lemma file_complete p e p' ms : create_file p e = Complete p' ms ->
    (files p (out e) <> None /\ p' = p /\ ms = [Exists_ (out e)]) \/
    (files p (out e) = None /\ exists u, text_for e u /\ register (write p (out e) u) (out e) = Complete p' ms).
  Proof.
    unfold ModelCreate.create_file. destruct (files p (out e)) as [old|]; [intros H; injection H as <- <-; by left|]. intros H. right. split; [done|].
    destruct (templates e) as [[|c t]|] eqn:Et; [| |done].
    - exists []. split; [|done]. exists []. split; [done|]. by left.
    - destruct (transform (c :: t)) as [u| | |] eqn:Eu; [|done|done|done]. exists u. split; [|done]. exists (c :: t). split; [done|]. by right.
  Qed.
  Lemma register_message p o p' ms : register p o = Complete p' ms -> ms = [Made o].
  Proof.
    unfold ModelCreate.register. destruct (decide _).
    - destruct (Text.Model.find_first _ _); [intros E; by injection E|]. destruct (add_include _ _); intros E; by simplify_eq/=.
    - destruct (decide _); [by intros (-> & _)%amend_complete|]. intros E. by injection E.
  Qed.
  Lemma out_inj e e' : out e = out e' -> e = e'.
  Proof. unfold output_file. intros H. apply app_inv_head in H. injection H as H. by apply app_inv_head in H. Qed.

  Lemma files_complete es : forall p ms p' ms', create_files p es ms = Complete p' ms' ->
    (forall e, e ∈ es -> files p' (out e) <> None) /\
    (forall q, files p q = None -> files p' q <> None -> exists e u, e ∈ es /\ q = out e /\ files p' q = Some u /\ text_for e u).
  Proof.
    induction es as [|e es IH]; intros p ms p' ms' H; cbn [ModelCreate.create_files] in H.
    - injection H as <- <-. split; [intros e He; by apply elem_of_nil in He|]. by intros q ? [].
    - destruct (create_file p e) as [p1 m|p1|] eqn:E; [|done|done]. destruct (IH _ _ _ _ H) as [H1 H2].
      assert (Hk : forall q t, files p1 q = Some t -> files p' q = Some t).
      { intros q t. apply (files_kept es p1 (ms ++ m)). by rewrite H. }
      assert (He : files p1 (out e) <> None /\ forall q, files p q = None -> files p1 q <> None -> q = out e /\ exists u, files p1 q = Some u /\ text_for e u).
      { apply file_complete in E as [(H3 & -> & _)|(H3 & u & Hu & E)]; [by split|].
        assert (files p1 = files (write p (out e) u)) as -> by (eapply register_files; by rewrite E). split.
        - cbn. by destruct (decide (out e = out e)).
        - intros q Hq. cbn. destruct (decide (q = out e)) as [->|]; [|done]. intros _. split; [done|]. by exists u. }
      destruct He as [He1 He2]. split.
      + intros e' [->|He']%elem_of_cons; [|by apply H1]. destruct (files p1 (out e)) as [t|] eqn:Et; [|done]. by rewrite (Hk _ _ Et).
      + intros q Hq Hq'. destruct (files p1 q) as [t|] eqn:Et.
        * destruct (He2 q Hq) as (-> & u & Hu & Ht); [by rewrite Et|]. exists e, u. split; [by left|]. split; [done|]. split; [|done]. apply Hk. congruence.
        * destruct (H2 q Et Hq') as (e' & u & He' & Hr). exists e', u. split; [by right|done].
  Qed.

  Lemma files_messages es : forall p ms p' ms', NoDup es -> create_files p es ms = Complete p' ms' ->
    ms' = ms ++ map (fun e => match files p (out e) with Some _ => Exists_ (out e) | None => Made (out e) end) es.
  Proof.
    induction es as [|e es IH]; intros p ms p' ms' Hd H; cbn [ModelCreate.create_files map] in *.
    - injection H as <- <-. by rewrite app_nil_r.
    - apply NoDup_cons in Hd as [Hne Hd]. destruct (create_file p e) as [p1 m|p1|] eqn:E; [|done|done]. rewrite (IH _ _ _ _ Hd H), <- app_assoc. f_equal.
      apply file_complete in E as [(H3 & -> & ->)|(H3 & u & Hu & E)].
      + by destruct (files p (out e)).
      + rewrite (register_message _ _ _ _ E), H3. cbn [app]. f_equal.
        assert (files p1 = files (write p (out e) u)) as -> by (eapply register_files; by rewrite E).
        apply map_ext_in. intros e' He'. cbn. destruct (decide (out e' = out e)) as [Ho|]; [|done]. apply out_inj in Ho as ->.
        by apply elem_of_list_In in He'.
  Qed.

  Lemma files_again es : forall p ms, (forall e, e ∈ es -> files p (out e) <> None) ->
    create_files p es ms = Complete p (ms ++ map (fun e => Exists_ (out e)) es).
  Proof.
    induction es as [|e es IH]; intros p ms H; cbn [ModelCreate.create_files map]; [by rewrite app_nil_r|].
    unfold ModelCreate.create_file. destruct (files p (out e)) eqn:E; [|by destruct (H e); [left|]].
    rewrite IH by (intros e' He'; apply H; by right). by rewrite <- app_assoc.
  Qed.

  Lemma register_mains p o p' ms : register p o = Complete p' ms -> Forall2 (fun m m' => fst m' = fst m) (mains p) (mains p').
  Proof.
    assert (Hr : forall l : list (text * text), Forall2 (fun m m' => fst m' = fst m) l l) by (induction l; by constructor).
    unfold ModelCreate.register. destruct (decide _).
    - destruct (Text.Model.find_first _ _); [intros E; injection E as <- _; apply Hr|].
      destruct (add_include _ _); intros E; try done. injection E as <- _. apply Hr.
    - destruct (decide _); [|intros E; injection E as <- _; apply Hr]. intros (_ & _ & _ & H)%amend_complete.
      eapply Forall2_impl; [exact H|]. intros m m' Hm. cbn beta in Hm. destruct (add_to_cmake _ _ _ _); cbn in Hm; try done. by injection Hm as <-.
  Qed.
  Lemma files_mains es : forall p ms p' ms', create_files p es ms = Complete p' ms' -> Forall2 (fun m m' => fst m' = fst m) (mains p) (mains p').
  Proof.
    induction es as [|e es IH]; intros p ms p' ms' H; cbn [ModelCreate.create_files] in H.
    - injection H as <- _. induction (mains p); by constructor.
    - destruct (create_file p e) as [p1 m|p1|] eqn:E; [|done|done].
      assert (Forall2 (fun m m' => fst m' = fst m) (mains p) (mains p1)) as H1.
      { apply file_complete in E as [(_ & -> & _)|(_ & u & _ & E)]; [induction (mains p); by constructor|]. by apply register_mains in E. }
      eapply Forall2_transitive; [|exact H1|by eapply IH]. intros a b c H2 H3. by rewrite H3.
  Qed.

  Lemma create_again p es suite ind cs p' ms : clean suite ind cs ->
    Forall (fun m => forall before rest after, suite_at (fst m) suite before rest after -> unclosed (quoted suite ++ rest)) (mains p) ->
    create p es suite ind cs = Complete p' ms ->
    create p' es suite ind cs = Complete p' (map (fun e => Exists_ (out e)) es).
  Proof.
    intros Hc Hu. unfold ModelCreate.create. destruct (create_files p es []) as [p1 ms1|p1|] eqn:E; [|done|done].
    intros (-> & Hf & Hi & Hm)%amend_complete. destruct (files_complete _ _ _ _ _ E) as [H1 _].
    rewrite (files_again es p' []). 2:{ intros e He. rewrite Hf. by apply H1. }
    apply amend_complete. split; [done|]. split; [done|]. split; [done|].
    pose proof (files_mains _ _ _ _ _ E) as Hm0. clear -Hm Hm0 Hu Hc. revert Hm0 Hu. generalize (mains p).
    induction Hm as [|m1 m' l l' H Hl IH]; intros l0 Hm0 Hu; [constructor|]. inversion Hm0 as [|m0 ? l0' ? H0 H0']; subst. apply Forall_cons in Hu as [Hu0 Hu].
    constructor; [|by apply (IH l0')]. destruct (add_to_suite (fst m1) suite ind cs) as [t| | |] eqn:Et; cbn [rbind] in H; try done.
    injection H as <-. cbn [fst snd]. rewrite (repeat_all (fst m1) suite ind cs t Hc); [done| |done]. rewrite H0. exact Hu0.
  Qed.

  (** ** What is registered *)
  Lemma suffix_extension n e : "."%char :: e = ⌜".hpp"⌝ \/ "."%char :: e = ⌜".cpp"⌝ -> n <> [] ->
    forall x, ("."%char :: e) `suffix_of` x -> SoftUpdate.Model.extension (n ++ x) = "."%char :: e.
  Proof.
    intros He Hn x [s ->]. rewrite app_assoc. assert ("."%char ∉ e) as Hd.
    { destruct He as [He|He]; injection He as ->; apply (bool_decide_unpack _); by vm_compute. }
    apply (parts_model ((n ++ s) ++ "."%char :: e) (n ++ s) ("."%char :: e)). apply parts_dot; [by destruct n|done].
  Qed.

  Lemma registered_as q t e p p' ms : tests = absolute t -> camel <> [] -> register p (out e) = Complete p' ms -> q = out e ->
    (header_ending e -> mains p' = mains p /\ (for_utilities t q -> includes p' = includes p) /\
      (~ for_utilities t q -> add_include (includes p) (slashed q) = Ok (includes p'))) /\
    (source_ending e -> includes p' = includes p /\ Forall2 (fun m m' => fst m' = fst m /\
      add_to_cmake (snd m) ⌜"target_sources("⌝ ⌜")
"⌝ (⌜"${TestDir}/"⌝ ++ slashed q) = Ok (snd m')) (mains p) (mains p')).
  Proof.
    intros -> Hc H ->. unfold ModelCreate.register in H.
    assert (Hx : extension_of (out e) = SoftUpdate.Model.extension (camel ++ e)) by (unfold extension_of, output_file; by rewrite last_snoc).
    rewrite Hx in H. pose proof (generic_absolute (t ++ out e)) as Hg. change (absolute (t ++ out e)) with (absolute t ++ out e) in Hg.
    rewrite Hg in H. pose proof (slashed_generic (out e)) as Hs. rewrite Hs in H. split.
    - intros He. rewrite (suffix_extension camel ⌜"hpp"⌝ (or_introl eq_refl) Hc e He) in H. destruct (decide _) as [_|n]; [|by destruct n].
      destruct (Text.Model.find_first _ _) as [k|] eqn:E.
      + injection H as <- _. split; [done|]. split; [done|]. intros Hn. destruct Hn. apply Text.Proofs.find_first_Some in E. destruct E as [E _]. by exists k.
      + apply Text.Proofs.find_first_None in E. destruct (add_include _ _) as [u| | |] eqn:Ei; try done. injection H as <- _. split; [done|]. split; [done|].
        intros _. done.
    - intros He. rewrite (suffix_extension camel ⌜"cpp"⌝ (or_intror eq_refl) Hc e He) in H. destruct (decide _) as [n|_]; [discriminate n|].
      destruct (decide _) as [_|n]; [|by destruct n]. apply amend_complete in H as (_ & _ & Hi & Hm). split; [done|].
      eapply Forall2_impl; [exact Hm|]. intros m m' H. cbn beta in H. destruct (add_to_cmake _ _ _ _) as [c| | |]; cbn [rbind] in H; try done.
      by injection H as <-.
  Qed.

  Lemma endings_differ e : header_ending e -> ~ source_ending e.
  Proof.
    intros [a ->] [b E]. apply app_inj_2 in E as [_ E]; [discriminate E|done].
  Qed.
  Lemma utilities_dec t q : for_utilities t q \/ ~ for_utilities t q.
  Proof.
    unfold for_utilities. destruct (Text.Model.find_first ⌜"Utilities.hpp"⌝ (⌜"/"⌝ ++ slashed (t ++ q))) as [k|] eqn:E.
    - left. apply Text.Proofs.find_first_Some in E. destruct E as [E _]. by exists k.
    - right. by apply Text.Proofs.find_first_None in E.
  Qed.

  Lemma files_registered t es : tests = absolute t -> camel <> [] -> forall p ms p' ms', NoDup es ->
    Forall (fun e => header_ending e \/ source_ending e) es -> create_files p es ms = Complete p' ms' ->
    exists hs ss, chosen (fun e => files p (out e) = None /\ header_ending e /\ ~ for_utilities t (out e)) es hs /\
      chosen (fun e => files p (out e) = None /\ source_ending e) es ss /\
      edits (fun l e => add_include l (slashed (out e))) (includes p) hs = Ok (includes p') /\
      Forall2 (fun m m' => fst m' = fst m /\ edits (fun l e => add_to_cmake l ⌜"target_sources("⌝ ⌜")
"⌝ (⌜"${TestDir}/"⌝ ++ slashed (out e))) (snd m) ss = Ok (snd m')) (mains p) (mains p').
  Proof.
    intros Ht Hc. induction es as [|e es IH]; intros p ms p' ms' Hd Hes H; cbn [ModelCreate.create_files] in H.
    - injection H as <- _. exists [], []. split; [constructor|]. split; [constructor|]. split; [done|]. induction (mains p); by constructor.
    - apply NoDup_cons in Hd as [Hne Hd]. apply Forall_cons in Hes as [He Hes]. destruct (create_file p e) as [p1 m|p1|] eqn:E; [|done|done].
      destruct (IH _ _ _ _ Hd Hes H) as (hs & ss & H1 & H2 & H3 & H4). apply file_complete in E as [(Ho & -> & _)|(Ho & u & _ & E)].
      + exists hs, ss. split; [by apply chosen_skip; [intros [? _]|]|]. split; [by apply chosen_skip; [intros [? _]|]|]. done.
      + assert (Hf : forall e', e' ∈ es -> files p1 (out e') = files p (out e')).
        { assert (files p1 = files (write p (out e) u)) as -> by (eapply register_files; by rewrite E). intros e' He'. cbn.
          destruct (decide (out e' = out e)) as [Hq|]; [|done]. by apply out_inj in Hq as ->. }
        assert (H1' : chosen (fun e => files p (out e) = None /\ header_ending e /\ ~ for_utilities t (out e)) es hs).
        { eapply chosen_ext; [|exact H1]. intros e' He'. cbn beta. by rewrite (Hf e' He'). }
        assert (H2' : chosen (fun e => files p (out e) = None /\ source_ending e) es ss).
        { eapply chosen_ext; [|exact H2]. intros e' He'. cbn beta. by rewrite (Hf e' He'). }
        destruct (registered_as (out e) t e _ _ _ Ht Hc E eq_refl) as [Rh Rs]. cbn [includes mains write] in Rh, Rs.
        destruct He as [He|He].
        * destruct (Rh He) as (Hm & Hu & Hi). rewrite Hm in H4. pose proof (endings_differ e He) as Hs. destruct (utilities_dec t (out e)) as [Hut|Hut].
          -- exists hs, ss. split; [apply chosen_skip; [tauto|done]|]. split; [apply chosen_skip; [tauto|done]|]. rewrite (Hu Hut) in H3. done.
          -- exists (e :: hs), ss. split; [by apply chosen_take|]. split; [apply chosen_skip; [tauto|done]|]. split; [|done].
             cbn [edits]. rewrite (Hi Hut). exact H3.
        * destruct (Rs He) as [Hi Hm]. assert (~ header_ending e) as Hh by (intros Hh; by apply (endings_differ e Hh)).
          exists hs, (e :: ss). split; [apply chosen_skip; [tauto|done]|]. split; [by apply chosen_take|]. split; [by rewrite Hi in H3|].
          eapply Forall2_transitive; [|exact Hm|exact H4]. intros m0 m1 m2 [E1 E2] [E3 E4]. split; [congruence|]. cbn [edits]. rewrite E2. exact E4.
  Qed.

  Lemma create_registered t es p suite ind cs p' ms : tests = absolute t -> camel <> [] -> NoDup es ->
    Forall (fun e => header_ending e \/ source_ending e) es -> create p es suite ind cs = Complete p' ms ->
    exists hs ss, chosen (fun e => files p (out e) = None /\ header_ending e /\ ~ for_utilities t (out e)) es hs /\
      chosen (fun e => files p (out e) = None /\ source_ending e) es ss /\
      edits (fun l e => add_include l (slashed (out e))) (includes p) hs = Ok (includes p') /\
      Forall2 (fun m m' => add_to_suite (fst m) suite ind cs = Ok (fst m') /\
        edits (fun l e => add_to_cmake l ⌜"target_sources("⌝ ⌜")
"⌝ (⌜"${TestDir}/"⌝ ++ slashed (out e))) (snd m) ss = Ok (snd m')) (mains p) (mains p').
  Proof.
    intros Ht Hc Hd Hes. unfold ModelCreate.create. destruct (create_files p es []) as [p1 ms1|p1|] eqn:E; [|done|done].
    intros (-> & Hf & Hi & Hm)%amend_complete. destruct (files_registered t es Ht Hc _ _ _ _ Hd Hes E) as (hs & ss & H1 & H2 & H3 & H4).
    exists hs, ss. split; [done|]. split; [done|]. split; [by rewrite Hi|]. eapply Forall2_transitive; [|exact H4|exact Hm].
    intros m0 m1 m2 [E1 E2] E3. cbn beta in E3. rewrite E1 in E3. destruct (add_to_suite _ _ _ _) as [t'| | |]; cbn [rbind] in E3; try done.
    injection E3 as <-. done.
  Qed.

  Lemma create_files_complete p es suite ind cs p' ms : NoDup es -> create p es suite ind cs = Complete p' ms ->
    (forall e, e ∈ es -> files p' (out e) <> None) /\
    (forall q, files p q = None -> files p' q <> None -> exists e u, e ∈ es /\ q = out e /\ files p' q = Some u /\ text_for e u) /\
    ms = map (fun e => match files p (out e) with Some _ => Exists_ (out e) | None => Made (out e) end) es.
  Proof.
    intros Hd. unfold ModelCreate.create. destruct (create_files p es []) as [p1 ms1|p1|] eqn:E; [|done|done].
    intros (-> & Hf & _)%amend_complete. destruct (files_complete _ _ _ _ _ E) as [H1 H2]. rewrite Hf. split; [done|]. split; [done|].
    exact (files_messages _ _ _ _ _ Hd E).
  Qed.
End creation.
