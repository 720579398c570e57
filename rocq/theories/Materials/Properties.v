(** C92: tests find their materials. *)
From Coq Require Import Ascii String.
From stdpp Require Import list gmap strings.
From Verif.Base Require Import Outcome.
From Verif.Text Require Import Model.
From Verif.Materials Require Import Model Spec ProofsSuites.
Local Notation "⌜ s ⌝" := (list_ascii_of_string s%string).

(** After all suites have been added, every test with materials finds its working copy, or everything, and its
    auxiliary materials, exactly as they are in the folder for materials; nothing else is left from earlier
    runs; and outside the folder for temporary data nothing has changed.  Partial: no materials of a test may lie
    below those of another one. *)
Theorem C92_provided_partial M T d suites : disjoint_paths M T -> T <> [] -> side_by_side (concat suites) ->
  (forall rel, rel ∈ concat suites -> d !! (M ++ rel) = None \/ d !! (M ++ rel) = Some Folder) ->
  (forall rel, rel ∈ concat suites -> way_free d (T ++ rel)) ->
  exists d', set_suites M T d suites = Ok d' /\ only_below T d d' /\
    (forall rel, rel ∈ concat suites -> provided d (M ++ rel) d' (T ++ rel)).
Proof. exact (suites_provided M T d suites). Qed.
Print Assumptions C92_provided_partial.

(** The same holds when tests are reset for another round, whatever they have done to what was provided. *)
Theorem C92_reset_partial M T d d1 rels : disjoint_paths M T -> T <> [] -> side_by_side rels ->
  (forall rel, rel ∈ rels -> d !! (M ++ rel) = None \/ d !! (M ++ rel) = Some Folder) ->
  (forall rel, rel ∈ rels -> way_free d1 (T ++ rel)) ->
  (forall r, d1 !! (M ++ r) = d !! (M ++ r)) ->
  exists d' paths, set_suite M T d1 [] rels = Ok (d', paths) /\ only_below T d1 d' /\
    (forall rel, rel ∈ rels -> provided d (M ++ rel) d' (T ++ rel)).
Proof. exact (reset_provided M T d d1 rels). Qed.
Print Assumptions C92_reset_partial.

Definition some_materials : path := [⌜"TestMaterials"⌝].
Definition some_temporary : path := [⌜"output"⌝; ⌜"TestsTemporaryData"⌝].
Definition some_disk : disk := list_to_map [
  ([⌜"TestMaterials"⌝], Folder);
  ([⌜"TestMaterials"⌝; ⌜"A"⌝], Folder); ([⌜"TestMaterials"⌝; ⌜"A"⌝; ⌜"x.txt"⌝], File ⌜"x"⌝);
  ([⌜"TestMaterials"⌝; ⌜"B"⌝], Folder); ([⌜"TestMaterials"⌝; ⌜"B"⌝; ⌜"Prediction"⌝], Folder);
  ([⌜"TestMaterials"⌝; ⌜"B"⌝; ⌜"WorkingCopy"⌝], Folder); ([⌜"TestMaterials"⌝; ⌜"B"⌝; ⌜"WorkingCopy"⌝; ⌜"y.txt"⌝], File ⌜"y"⌝);
  ([⌜"TestMaterials"⌝; ⌜"B"⌝; ⌜"C"⌝], Folder); ([⌜"TestMaterials"⌝; ⌜"B"⌝; ⌜"C"⌝; ⌜"z.txt"⌝], File ⌜"z"⌝);
  ([⌜"output"⌝], Folder); ([⌜"output"⌝; ⌜"TestsTemporaryData"⌝], Folder);
  ([⌜"output"⌝; ⌜"TestsTemporaryData"⌝; ⌜"A"⌝], Folder);
  ([⌜"output"⌝; ⌜"TestsTemporaryData"⌝; ⌜"A"⌝; ⌜"old.txt"⌝], File ⌜"old"⌝)].

Example C92_provided_ex :
  let suites := [[[⌜"A"⌝]; [⌜"B"⌝]]; [[⌜"A"⌝]; [⌜"D"⌝]]] in
  disjoint_paths some_materials some_temporary /\ some_temporary <> [] /\ side_by_side (concat suites) /\
  (forall rel, rel ∈ concat suites -> some_disk !! (some_materials ++ rel) = None \/ some_disk !! (some_materials ++ rel) = Some Folder) /\
  (forall rel, rel ∈ concat suites -> way_free some_disk (some_temporary ++ rel)) /\
  match set_suites some_materials some_temporary some_disk suites with
  | Ok d => d !! (some_temporary ++ [⌜"A"⌝; ⌜"x.txt"⌝]) = Some (File ⌜"x"⌝) /\ d !! (some_temporary ++ [⌜"A"⌝; ⌜"old.txt"⌝]) = None /\
            d !! (some_temporary ++ [⌜"B"⌝; ⌜"WorkingCopy"⌝; ⌜"y.txt"⌝]) = Some (File ⌜"y"⌝)
  | _ => False
  end.
Proof.
  cbv zeta. split; [split; by intros [k H]|]. split; [done|]. split; [|split; [|split]].
  - assert (forall p, p ∈ concat [[[⌜"A"⌝]; [⌜"B"⌝]]; [[⌜"A"⌝]; [⌜"D"⌝]]] -> exists x, p = [x]) as HS.
    { intros p Hp. cbn [concat app] in Hp. repeat (apply elem_of_cons in Hp as [-> | Hp]; [by eexists|]). by apply elem_of_nil in Hp. }
    intros p q Hp Hq [k H]. apply HS in Hp as [x ->], Hq as [y ->]. by injection H as -> _.
  - intros rel Hp. cbn [concat app] in Hp. repeat (apply elem_of_cons in Hp as [-> | Hp]; [first [right; vm_compute; reflexivity|left; vm_compute; reflexivity]|]).
    by apply elem_of_nil in Hp.
  - intros rel Hp q c [k Hq] Hne. assert (exists x, rel = [x]) as [x ->].
    { cbn [concat app] in Hp. repeat (apply elem_of_cons in Hp as [-> | Hp]; [by eexists|]). by apply elem_of_nil in Hp. }
    unfold some_temporary in Hq, Hne. destruct q as [|a [|b [|a' q]]]; cbn [app] in Hq, Hne; [vm_compute; done|injection Hq as <- _; vm_compute; done|injection Hq as <- <- _; vm_compute; done|].
    injection Hq as <- <- <- Hq. exfalso. destruct q; [|done]. done.
  - vm_compute. done.
Qed.

(** Materials below those of another test are lost, or changed, if that test is added later; ... *)
Theorem C92_nested_refuted : exists d suites rel, In rel (concat suites) /\
  d !! (some_materials ++ rel ++ [⌜"z.txt"⌝]) = Some (File ⌜"z"⌝) /\
  match set_suites some_materials some_temporary d suites with
  | Ok d' => d' !! (some_temporary ++ rel) = None
  | _ => False
  end.
Proof. exists some_disk, [[[⌜"B"⌝; ⌜"C"⌝]; [⌜"B"⌝]]], [⌜"B"⌝; ⌜"C"⌝]. split; [by left|]. split; vm_compute; reflexivity. Qed.
Print Assumptions C92_nested_refuted.

(** ... and sources which differ in the extension only - likewise twice the same source - have one working copy
    between them. *)
Theorem C92_shared_refuted : exists s s' repo rel, s <> s' /\
  relative_materials s repo = Ok rel /\ relative_materials s' repo = Ok rel.
Proof.
  exists [⌜".."⌝; ⌜"Tests"⌝; ⌜"Maths"⌝; ⌜"Graph.cpp"⌝], [⌜".."⌝; ⌜"Tests"⌝; ⌜"Maths"⌝; ⌜"Graph.hpp"⌝], [⌜"Tests"⌝], [⌜"Maths"⌝; ⌜"Graph"⌝].
  split; [done|]. split; vm_compute; reflexivity.
Qed.
Print Assumptions C92_shared_refuted.
