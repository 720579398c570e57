(** Properties of [soft_update] (C46). *)
From Coq Require Import Ascii String.
From stdpp Require Import list sets.
From Verif.Base Require Import Outcome Compare.
From Verif.Text Require Import Model.
From Verif.SoftUpdate Require Import Model Spec Proofs.

Definition txt (s : string) : text := list_ascii_of_string s.

(** C46: if [soft_update] returns, the predictive folder mirrors the working one: it has the same files and folders, with the
    same contents (files with supplementary expressions up to what these match). The working folder is as it was, but
    for special files; and the special files of the prediction are still there. *)
Theorem soft_update_mirrors : forall regex_remove fuel f t f' t', well_formed f -> well_formed t ->
  soft_update regex_remove fuel f t = Ok (f', t') ->
  mirrors regex_remove f' t' /\ kept f f' /\ specials_survive f t t'.
Proof. exact soft_update_correct. Qed.
Print Assumptions soft_update_mirrors.

(** C46: it returns exactly for the safe pairs of folders: at each level the greatest entry of the working folder is also in the
    prediction, or is at least as great as every entry there; and no file stands where the prediction has a folder. *)
Theorem soft_update_returns_partial : forall regex_remove fuel f t, well_formed f -> well_formed t -> depth (Dir f) <= fuel ->
  (exists r, soft_update regex_remove fuel f t = Ok r) <-> safe f t.
Proof. exact soft_update_succeeds. Qed.
Print Assumptions soft_update_returns_partial.

Theorem soft_update_ends : forall regex_remove fuel f t, well_formed f -> well_formed t -> depth (Dir f) <= fuel ->
  soft_update regex_remove fuel f t <> NoFuel.
Proof. exact soft_update_terminates. Qed.
Print Assumptions soft_update_ends.

Definition example_from : list (text * node) :=
  [(txt "b.txt", File (txt "new")); (txt "sub", Dir [(txt "x", File (txt "1"))]); (txt "a.txt", File (txt "new"))].
Definition example_to : list (text * node) :=
  [(txt "a.txt", File (txt "old")); (txt "a.seqpat", File (txt "old|new")); (txt "gone", Dir [(txt "y", File [])]); (txt ".keep", File []);
   (txt "sub", Dir [(txt "w", File []); (txt "x", File (txt "2"))])].
(** a matcher of the expression above *)
Definition example_regex (r s : text) : text :=
  if decide (r = txt "old|new") then if decide (s = txt "old" \/ s = txt "new") then [] else s else s.

Example soft_update_example : well_formed example_from /\ well_formed example_to /\
  soft_update example_regex 3 example_from example_to =
    Ok ([(txt "b.txt", File (txt "new")); (txt "sub", Dir [(txt "x", File (txt "1"))]); (txt "a.txt", File (txt "new"));
         (txt "a.seqpat", File (txt "old|new")); (txt ".keep", File [])],
        [(txt "a.txt", File (txt "old")); (txt "a.seqpat", File (txt "old|new")); (txt ".keep", File []);
         (txt "sub", Dir [(txt "x", File (txt "1"))]); (txt "b.txt", File (txt "new"))]).
Proof.
  split; [|split; [|by vm_compute]].
  - constructor; [apply (bool_decide_unpack _); by vm_compute..|]. intros n x H. apply entry_elem in H. unfold example_from in H.
    rewrite !elem_of_cons, elem_of_nil in H. destruct H as [H|[H|[H|[]]]]; try discriminate. injection H as _ ->.
    constructor; [apply (bool_decide_unpack _); by vm_compute..|]. intros m y Hm. apply entry_elem in Hm. apply elem_of_list_singleton in Hm. discriminate.
  - constructor; [apply (bool_decide_unpack _); by vm_compute..|]. intros n x H. apply entry_elem in H. unfold example_to in H.
    rewrite !elem_of_cons, elem_of_nil in H. destruct H as [H|[H|[H|[H|[H|[]]]]]]; try discriminate; injection H as _ ->;
      (constructor; [apply (bool_decide_unpack _); by vm_compute..|]; intros m y Hm; apply entry_elem in Hm;
       rewrite !elem_of_cons, elem_of_nil in Hm; naive_solver).
Qed.

(** Updating a prediction which has one file of another, greater name reads past the end of the listing. *)
Theorem soft_update_reads_past_end_refuted : exists f t, well_formed f /\ well_formed t /\
  forall regex_remove fuel, soft_update regex_remove (S fuel) f t = UB.
Proof.
  exists [(txt "a", File [])], [(txt "b", File [])]. split; [|split; [|done]];
    (constructor; [apply (bool_decide_unpack _); by vm_compute..|]; intros n x H; apply entry_elem, elem_of_list_singleton in H; discriminate).
Qed.
Print Assumptions soft_update_reads_past_end_refuted.

(** A file is not put in the place of a folder. *)
Theorem soft_update_file_for_folder_refuted : exists f t, well_formed f /\ well_formed t /\
  forall regex_remove fuel, soft_update regex_remove (S fuel) f t = Throw RuntimeError.
Proof.
  exists [(txt "a", File [])], [(txt "a", Dir [])]. split; [|split; [|done]].
  - constructor; [apply (bool_decide_unpack _); by vm_compute..|]. intros n x H. apply entry_elem, elem_of_list_singleton in H; discriminate.
  - constructor; [apply (bool_decide_unpack _); by vm_compute..|]. intros n x H. apply entry_elem, elem_of_list_singleton in H. injection H as _ ->.
    constructor; [constructor|apply not_elem_of_nil|done].
Qed.
Print Assumptions soft_update_file_for_folder_refuted.

(** C46: the expressions of a supplementary file are its lines, up to an empty one. *)
Theorem soft_update_expressions : forall ls w rest, Forall (fun w => w <> [] /\ nl ∉ w) ls -> nl ∉ w ->
  expressions (Some (File (concat (map (fun w => w ++ [nl]) ls) ++ nl :: rest))) = ls /\
  expressions (Some (File (concat (map (fun w => w ++ [nl]) ls) ++ w))) = ls ++ (match w with [] => [] | _ => [w] end).
Proof. exact expressions_lines. Qed.
Print Assumptions soft_update_expressions.

Example soft_update_expressions_example :
  Forall (fun w => w <> [] /\ nl ∉ w) [txt "a.*"; txt "[0-9]+"] /\ nl ∉ txt "b" /\
  expressions (Some (File (txt "a.*" ++ [nl] ++ txt "[0-9]+" ++ [nl] ++ [nl] ++ txt "b"))) = [txt "a.*"; txt "[0-9]+"].
Proof. split; [|split]; [apply (bool_decide_unpack _); by vm_compute..|]. by vm_compute. Qed.
