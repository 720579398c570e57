(** C72: comparison of paths. *)
From Coq Require Import Ascii String.
From stdpp Require Import list.
From Verif.Base Require Import Outcome Compare.
From Verif.Text Require Import Model.
From Verif.SoftUpdate Require Import Model Spec ProofsFormed.
From Verif.TextCheck Require Model.
From Verif.PathCheck Require Import Model Spec ProofsCheck.

Local Notation "⌜ s ⌝" := (list_ascii_of_string s%string).

(** Files and folders pass exactly if they are alike: the same files and folders, but for excluded ones and for what the
    expressions in supplementary files match; and, for equivalence, the names of the paths are the same. *)
Theorem C72_passes : forall rx strong fuel p n e t n' e', formed e -> formed e' -> depth e < fuel ->
  check_path rx strong fuel p (Some n) (Some e) t (Some n') (Some e') = Ok [] <->
  (strong = true -> n = n') /\ alike rx t n n' (Some e) (Some e').
Proof. exact check_passes. Qed.
Print Assumptions C72_passes.

(** Otherwise the failures are the differences at the places which are compared, all of them, and nothing else; nothing is thrown. *)
Theorem C72_reports : forall rx strong fuel p n e t n' e', formed e -> formed e' -> depth e < fuel ->
  exists l, check_path rx strong fuel p (Some n) (Some e) t (Some n') (Some e') = Ok l /\
    forall q i, (q, i) ∈ l <-> exists r u k k' z z', q = p ++ r /\ compared strong t n n' e e' r u k k' z z' /\ differ rx strong u k k' z z' i.
Proof. exact check_reports. Qed.
Print Assumptions C72_reports.

Definition example_obtained : list (text * node) :=
  [(⌜"b.txt"⌝, File ⌜"same"⌝); (⌜".keep"⌝, File []); (⌜"a.txt"⌝, File ⌜"date 1"⌝); (⌜"sub"⌝, Dir [(⌜"x"⌝, File ⌜"1"⌝); (⌜"z"⌝, File [])])].
Definition example_prediction : list (text * node) :=
  [(⌜"a.seqpat"⌝, File ⌜"1|2"⌝); (⌜"a.txt"⌝, File ⌜"date 2"⌝); (⌜"b.txt"⌝, File ⌜"some"⌝); (⌜"sub"⌝, Dir [(⌜"y"⌝, File ⌜"1"⌝)])].
(** a matcher of the expression above *)
Definition example_regex (r s : text) : text :=
  if decide (r = ⌜"1|2"⌝) then List.filter (fun c => negb (Ascii.eqb c "1" || Ascii.eqb c "2")) s else s.

Example C72_reports_ex :
  formed (Dir example_obtained) /\ formed (Dir example_prediction) /\ depth (Dir example_obtained) < 3 /\
  check_path example_regex true 3 [] (Some ⌜"dir"⌝) (Some (Dir example_obtained)) [] (Some ⌜"dir"⌝) (Some (Dir example_prediction)) =
    Ok [([⌜"b.txt"⌝], WrongContents (TextCheck.Model.Report (TextCheck.Model.Characters "a" "o") (Some (TextCheck.Model.AtCharacter 1)) true ⌜"same"⌝ ⌜"some"⌝));
        ([⌜"sub"⌝], WrongNumber 2 1); ([⌜"sub"⌝], WrongEntry (Some ⌜"x"⌝) (Some ⌜"y"⌝))] /\
  check_path example_regex true 3 [] (Some ⌜"a.txt"⌝) (Some (File ⌜"date 1"⌝)) example_prediction (Some ⌜"a.txt"⌝) (Some (File ⌜"date 2"⌝)) = Ok [].
Proof.
  assert (forall d, Forall (fun x => match snd x with File _ => True | Dir _ => False end) d -> NoDup (map fst d) -> [] ∉ map fst d -> well_formed d) as Hflat.
  { intros d HF H1 H2. constructor; [done..|]. intros n x H. apply Proofs.entry_elem in H. rewrite Forall_forall in HF. by apply HF in H. }
  split; [|split; [|split; [vm_compute; lia|split; vm_compute; reflexivity]]].
  - constructor; [apply (bool_decide_unpack _); by vm_compute..|]. intros n x H. apply Proofs.entry_elem in H. unfold example_obtained in H.
    rewrite !elem_of_cons, elem_of_nil in H. destruct H as [H|[H|[H|[H|[]]]]]; try discriminate. injection H as _ ->.
    apply Hflat; [repeat constructor|apply (bool_decide_unpack _); by vm_compute..].
  - constructor; [apply (bool_decide_unpack _); by vm_compute..|]. intros n x H. apply Proofs.entry_elem in H. unfold example_prediction in H.
    rewrite !elem_of_cons, elem_of_nil in H. destruct H as [H|[H|[H|[H|[]]]]]; try discriminate. injection H as _ ->.
    apply Hflat; [repeat constructor|apply (bool_decide_unpack _); by vm_compute..].
Qed.

(** After an update of predictions the check passes, both with what has been compared, and with the folder as the update leaves it. *)
Theorem C72_after_update : forall rx fuel f t f' t' strong k p n u, well_formed f -> well_formed t ->
  soft_update rx fuel f t = Ok (f', t') -> depth (Dir f) < k ->
  check_path rx strong k p (Some n) (Some (Dir f)) u (Some n) (Some (Dir t')) = Ok [].
Proof. exact update_then_check_original. Qed.
Print Assumptions C72_after_update.

Theorem C72_after_update_copied : forall rx fuel f t f' t' strong k p n u, well_formed f -> well_formed t ->
  soft_update rx fuel f t = Ok (f', t') -> depth (Dir f') < k ->
  check_path rx strong k p (Some n) (Some (Dir f')) u (Some n) (Some (Dir t')) = Ok [].
Proof. exact update_then_check. Qed.
Print Assumptions C72_after_update_copied.

Example C72_after_update_ex : exists f' t',
  soft_update example_regex 3 [(⌜"a"⌝, File ⌜"new"⌝); (⌜"b"⌝, Dir [])] [(⌜"a"⌝, File ⌜"old"⌝); (⌜".keep"⌝, File [])] = Ok (f', t') /\
  t' = [(⌜"a"⌝, File ⌜"new"⌝); (⌜".keep"⌝, File []); (⌜"b"⌝, Dir [])].
Proof.
  exists [(⌜"a"⌝, File ⌜"new"⌝); (⌜"b"⌝, Dir []); (⌜".keep"⌝, File [])]. eexists. split; [vm_compute; reflexivity|]. reflexivity.
Qed.

(** A path without anything there: a failure if there is something at the other one, and an exception if there is not. *)
Theorem C72_missing : forall rx strong fuel p n t n' e e', (e = None \/ e' = None) ->
  check_path rx strong (S fuel) p (Some n) e t (Some n') e' =
    match e, e' with
    | None, None => if strong && negb (bool_decide (n = n')) then Ok [(p, WrongName n n')] else Throw LogicError
    | _, _ => Ok [(p, WrongType (kind_of <$> e) (kind_of <$> e'))]
    end.
Proof. by intros rx strong fuel p n t n' [e|] [e'|] [H|H]. Qed.
Print Assumptions C72_missing.

(** But an empty path passes against any path with nothing there, while the other way round there is an exception. *)
Theorem C72_empty_refuted : exists n, forall rx fuel p t,
  check_path rx true (S fuel) p None None t (Some n) None = Ok [] /\
  check_path rx true (S fuel) p (Some n) None t None None = Throw RuntimeError.
Proof. by exists ⌜"missing"⌝. Qed.
Print Assumptions C72_empty_refuted.

(** According to the documentation names are ignored for weak equivalence; but those below the paths are not. *)
Theorem C72_weak_names_refuted : exists d d', formed (Dir d) /\ formed (Dir d') /\ map snd d = map snd d' /\
  forall rx, check_path rx false 2 [] (Some ⌜"dir"⌝) (Some (Dir d)) [] (Some ⌜"dir"⌝) (Some (Dir d')) =
    Ok [([], WrongEntry (Some ⌜"a"⌝) (Some ⌜"b"⌝))].
Proof.
  exists [(⌜"a"⌝, File ⌜"text"⌝)], [(⌜"b"⌝, File ⌜"text"⌝)].
  split; [|split; [|split; [done|by vm_compute]]];
    (constructor; [apply (bool_decide_unpack _); by vm_compute..|]; intros n x H; apply Proofs.entry_elem, elem_of_list_singleton in H; discriminate).
Qed.
Print Assumptions C72_weak_names_refuted.

(** Whole folders are left out because of their names. *)
Theorem C72_excluded_folder_refuted : exists d, formed (Dir d) /\ (exists n x m s, entry d n = Some (Dir x) /\ entry x m = Some (File s)) /\
  forall rx, check_path rx true 3 [] (Some ⌜"dir"⌝) (Some (Dir d)) [] (Some ⌜"dir"⌝) (Some (Dir [])) = Ok [].
Proof.
  exists [(⌜"results.seqpat"⌝, Dir [(⌜"important"⌝, File ⌜"text"⌝)])]. split; [|split].
  - constructor; [apply (bool_decide_unpack _); by vm_compute..|]. intros n x H. apply Proofs.entry_elem, elem_of_list_singleton in H. injection H as _ ->.
    constructor; [apply (bool_decide_unpack _); by vm_compute..|]. intros m y H. apply Proofs.entry_elem, elem_of_list_singleton in H. discriminate.
  - by exists ⌜"results.seqpat"⌝, [(⌜"important"⌝, File ⌜"text"⌝)], ⌜"important"⌝, ⌜"text"⌝.
  - by vm_compute.
Qed.
Print Assumptions C72_excluded_folder_refuted.
