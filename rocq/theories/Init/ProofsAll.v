(** Several projects *)
From Coq Require Import Ascii String.
From stdpp Require Import list gmap strings.
From Verif.Base Require Import Outcome ListLemmas.
From Verif.Text Require Import Model.
From Verif.Prune Require Model.
From Verif.Select Require Proofs.
From Verif.Materials Require Import Model Spec Proofs ProofsSuites.
From Verif.Creator Require Import Model.
From Verif.Init Require Import Model Spec ProofsCheck ProofsCopy ProofsCreate.
Local Open Scope res_scope.
Local Notation "⌜ s ⌝" := (list_ascii_of_string s%string).
Local Notation length := List.length.

Section same.
  Context (parent : path) (d d' : disk) (x : data).
  Hypothesis Hp : forall r, d' !! (parent ++ r) = d !! (parent ++ r).
  Hypothesis Hr : forall r, d' !! (project_root x ++ r) = d !! (project_root x ++ r).

  Lemma same_template : template parent d' = template parent d.
  Proof using Hp. unfold template, present. by rewrite Hp. Qed.
  Lemma same_sequoia : sequoia parent d' = sequoia parent d.
  Proof using Hp. unfold sequoia. assert (d' !! sequoia_root parent = d !! sequoia_root parent) as -> by apply Hp. done. Qed.
  Lemma below_template r : d' !! (template parent d ++ r) = d !! (template parent d ++ r).
  Proof using Hp. destruct (template_below parent d) as (u&->&_). rewrite <-app_assoc. apply Hp. Qed.
  Lemma below_sequoia r : d' !! (sequoia parent d ++ r) = d !! (sequoia parent d ++ r).
  Proof using Hp. unfold sequoia. destruct (d !! sequoia_root parent); [unfold sequoia_root; rewrite <-app_assoc; apply Hp|apply Hp]. Qed.
  Lemma same_part r : part d' parent (sequoia parent d) r = part d parent (sequoia parent d) r.
  Proof using Hp. unfold part. destruct r as [|n [|k s]]; [done| |]; by rewrite !below_sequoia. Qed.

  Lemma same_expected new r : expected parent d' x new r = expected parent d x new r.
  Proof using Hp Hr.
    unfold expected. rewrite same_template, same_sequoia. destruct (below [⌜"dependencies"⌝; ⌜"sequoia"⌝] r) as [[|k s]|].
    2: by rewrite same_part, below_sequoia.
    all: rewrite Hr, below_template; destruct (below (source_folder (project_root x)) r) as [s'|]; [by rewrite below_template|done].
  Qed.

  Lemma same_complete : complete parent d x -> complete parent d' x.
  Proof using Hp.
    intros [H1 H2 H3 H4 H5 H6 H7 H8 H9]. split; rewrite ?same_template, ?same_sequoia, ?below_template, ?below_sequoia; try done.
    - rewrite <-(app_nil_r (template parent d)), below_template, app_nil_r. done.
    - intros n. rewrite below_template. apply H6.
    - intros n. rewrite below_template. apply H8.
  Qed.
  Lemma same_changed year new : changed parent d x year new -> changed parent d' x year new.
  Proof using Hp. intros [H1 H2 H3 H4]. split; rewrite ?same_template, ?below_template; done. Qed.
  Lemma same_acceptable : acceptable d x -> acceptable d' x.
  Proof using Hr.
    intros [H1 H2 H3]. split; [done| |done]. pose proof (Hr []) as E. rewrite app_nil_r in E. rewrite E. destruct H2 as [H2|[H2 H4]]; [by left|right].
    split; [done|]. intros n. rewrite Hr. apply H4.
  Qed.
  Lemma same_orderly p : (forall r, d' !! (p ++ r) = d !! (p ++ r)) -> orderly d p -> orderly d' p.
  Proof using. intros H Ho q s [k ->] Hs. rewrite <-app_assoc, !H. intros He. apply (Ho _ s); [by eexists|done|]. by rewrite <-app_assoc. Qed.
End same.

(** What is needed for each project *)
Record ready (parent : path) (year : text) (new : data -> texts) (d : disk) (x : data) : Prop := {
  ready_accepted : acceptable d x;
  ready_parent : orderly d parent;
  ready_root : orderly d (project_root x);
  ready_disjoint : disjoint_paths parent (project_root x);
  ready_way : way_free d (project_root x);
  ready_complete : complete parent d x;
  ready_changed : changed parent d x year (new x)
}.

Lemma only_below_same root d d' p r : disjoint_paths root p -> only_below root d d' -> d' !! (p ++ r) = d !! (p ++ r).
Proof.
  intros Hdis Ho. destruct (Ho (p ++ r)) as [E|(_&_&H)]; [|done|].
  - intros [k E]. symmetry in E. by apply (disjoint_below root p k r Hdis).
  - destruct H as [k E]. rewrite <-app_assoc in E. exfalso. apply (disjoint_below root p [] (r ++ k) Hdis). by rewrite app_nil_r.
Qed.
Lemma disjoint_sym p q : disjoint_paths p q -> disjoint_paths q p.
Proof. intros [H1 H2]. by split. Qed.

Lemma still_ready parent year new d d' x y : disjoint_paths (project_root x) (project_root y) -> only_below (project_root x) d d' ->
  disjoint_paths parent (project_root x) -> ready parent year new d y -> ready parent year new d' y.
Proof.
  intros Hxy Ho Hpx [H1 H2 H3 H4 H5 H6 H7].
  assert (forall r, d' !! (parent ++ r) = d !! (parent ++ r)) as Hp by (intros r; apply (only_below_same (project_root x)); [by apply disjoint_sym|done]).
  assert (forall r, d' !! (project_root y ++ r) = d !! (project_root y ++ r)) as Hr by (intros r; by apply (only_below_same (project_root x))).
  split.
  - by apply (same_acceptable d d').
  - by apply (same_orderly d d').
  - by apply (same_orderly d d').
  - done.
  - intros q c Hq Hne. destruct (Ho q) as [->|(_&->&_)]; [|by apply H5|done].
    intros Hxq. destruct Hxy as [Hxy _]. apply Hxy. by etrans.
  - by apply (same_complete parent d d').
  - by apply (same_changed parent d d').
Qed.

Lemma created_from parent year new xs tmpl : forall d, tmpl = template parent d ->
  Forall (ready parent year new d) xs -> ForallOrdPairs (fun x y => disjoint_paths (project_root x) (project_root y)) xs ->
  exists d', init_from parent year tmpl d xs = Created d' /\
    (forall x, x ∈ xs -> forall r, d' !! (project_root x ++ r) = expected parent d x (new x) r) /\
    (forall q, (forall x, x ∈ xs -> ~ project_root x `prefix_of` q) ->
       d' !! q = d !! q \/ (d !! q = None /\ d' !! q = Some Folder /\ exists x, x ∈ xs /\ q `prefix_of` project_root x)).
Proof.
  induction xs as [|x xs IH]; intros d -> Hall Hdis; cbn [init_from].
  { exists d. split; [done|]. split; [intros x Hx; by apply elem_of_nil in Hx|]. intros q _. by left. }
  apply Forall_cons in Hall as [Hx Hall]. inversion Hdis as [|? ? Hxs Hdis']; subst.
  rewrite (proj2 (check_accepts d x) (ready_accepted _ _ _ _ _ Hx)).
  destruct (created parent d x year (new x)) as (d1&E1&H1&Ho1); try apply Hx. rewrite E1.
  pose proof (ready_disjoint _ _ _ _ _ Hx) as Hpx.
  assert (forall r, d1 !! (parent ++ r) = d !! (parent ++ r)) as Hp by (intros r; apply (only_below_same (project_root x)); [by apply disjoint_sym|done]).
  destruct (IH d1) as (d'&E'&H'&Ho').
  - symmetry. by apply same_template.
  - rewrite Forall_forall in Hall |- *. rewrite List.Forall_forall in Hxs. intros y Hy.
    apply (still_ready parent year new d d1 x y); [|done|done|by apply Hall]. apply Hxs. by apply elem_of_list_In.
  - done.
  - rewrite List.Forall_forall in Hxs. setoid_rewrite <-elem_of_list_In in Hxs. exists d'. split; [done|]. split.
    + intros y Hy r. apply elem_of_cons in Hy as [->|Hy].
      * rewrite <-H1. destruct (Ho' (project_root x ++ r)) as [?|(_&_&y&Hy&Hq)]; [|done|].
        -- intros y Hy [k E]. by apply (disjoint_below (project_root x) (project_root y) r k (Hxs y Hy)).
        -- destruct Hq as [k E]. rewrite <-app_assoc in E. exfalso. apply (disjoint_below (project_root x) (project_root y) (r ++ k) [] (Hxs y Hy)). by rewrite app_nil_r.
      * rewrite H' by done. apply same_expected; [done|]. intros s. apply (only_below_same (project_root x)); [by apply Hxs|done].
    + intros q Hq. destruct (Ho1 q) as [E|(E1'&E2'&E3')]; [apply Hq; left| |].
      * destruct (Ho' q) as [E2|(E2&E3&y&Hy&E4)]; [intros y Hy; apply Hq; by right| |].
        -- left. congruence.
        -- right. rewrite <-E. split; [done|]. split; [done|]. exists y. split; [by right|done].
      * right. split; [done|]. destruct (Ho' q) as [E2|(E2&_)]; [intros y Hy; apply Hq; by right| |congruence].
        split; [congruence|]. exists x. split; [left|done].
Qed.

(** What was created before a project is rejected stays. *)
Lemma rejected_from parent year tmpl xs d x ys : forall d', init_from parent year tmpl d xs = Created d' ->
  Forall (fun c => code c <= 127)%nat (List.last (project_root x) []) -> ~ acceptable d' x ->
  init_from parent year tmpl d (xs ++ x :: ys) = Rejected RuntimeError d'.
Proof.
  revert d. induction xs as [|y xs IH]; intros d d' E Hc Hx; cbn [app init_from] in *.
  - injection E as <-. by rewrite (proj1 (check_rejects d x Hc) Hx).
  - destruct (check d y) as [[]| | |]; try done. destruct (create parent year tmpl d y) as [d1| | |]; try done. by apply IH.
Qed.

Lemma disjoint_not_nil p q : disjoint_paths p q -> p <> [] /\ q <> [].
Proof. intros [H1 H2]. split; intros ->; [apply H1|apply H2]; apply prefix_nil. Qed.

Theorem all_created parent year new d xs : in_folders d ->
  Forall (fun x => acceptable d x /\ disjoint_paths parent (project_root x) /\ way_free d (project_root x) /\ complete parent d x /\ changed parent d x year (new x)) xs ->
  ForallOrdPairs (fun x y => disjoint_paths (project_root x) (project_root y)) xs ->
  exists d', init_projects parent year d xs = Created d' /\
    (forall x, x ∈ xs -> forall r, d' !! (project_root x ++ r) = expected parent d x (new x) r) /\
    (forall q, (forall x, x ∈ xs -> ~ project_root x `prefix_of` q) ->
       d' !! q = d !! q \/ (d !! q = None /\ d' !! q = Some Folder /\ exists x, x ∈ xs /\ q `prefix_of` project_root x)).
Proof.
  intros Hd Hall Hdis. apply created_from; [done| |done]. eapply Forall_impl; [exact Hall|]. intros x (H1&H2&H3&H4&H5).
  destruct (disjoint_not_nil _ _ H2) as [Hp Hx]. split; try done; by apply in_folders_orderly.
Qed.

(** Where the new project is built *)
Theorem new_build_spec root base e c : ⌜"/"⌝ ∉ base ->
  new_build root ((⌜"/"⌝ :: base) ++ e) ((⌜"/"⌝ :: base) ++ [c]) true = Ok (root ++ [⌜"build"⌝; ⌜"TestAll"⌝] ++ e, root ++ [⌜"build"⌝; ⌜"TestAll"⌝; c]).
Proof.
  intros Hb. unfold new_build. cbn [negb]. rewrite removelast_last. cbv zeta.
  assert (forall p, Prune.Model.rebase_from ((⌜"/"⌝ :: base) ++ p) (⌜"/"⌝ :: base) = Ok p) as H.
  { intros p. unfold Prune.Model.rebase_from. cbn [app]. cbn [Prune.Model.drop_up]. rewrite decide_False by done.
    change (⌜"/"⌝) with ["/"%char] at 1 3. cbv iota.
    pose proof (Select.Proofs.from_last_part [] (⌜"/"⌝) base Hb) as E. cbn [app] in E. cbn [list_ascii_of_string] in E |- *. rewrite E.
    f_equal. apply (Select.Proofs.strip_common_prefix (["/"%char] :: base) p). }
  rewrite !H. reflexivity.
Qed.
