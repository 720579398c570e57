(** What the adapted files contain (C101). *)
From Coq Require Import Ascii String.
From stdpp Require Import list gmap strings.
From Verif.Text Require Import Model Spec.
From Verif.Materials Require Import Model.
From Verif.Creator Require Import Model Spec.
From Verif.Init Require Import Model ModelTemplate Spec.
Local Notation "⌜ s ⌝" := (list_ascii_of_string s%string).

Definition author : text := ⌜"Oliver J. Rosten"⌝.

(** An indent as it is written in a literal *)
Fixpoint literal (ind : text) : text :=
  match ind with
  | [] => []
  | c :: ind' => (if decide (c = tab) then ⌜"\t"⌝ else [c]) ++ literal ind'
  end.

(** What stands for what in the main function, and in the files for CMake *)
Definition main_table (holder ind lower : text) : list (text * text) :=
  [(author, holder); (⌜"myProject"⌝, lower); (⌜"\t"⌝, literal ind); ([tab], ind)].
Definition cmake_table (name lower : text) : list (text * text) := [(⌜"MyProject"⌝, name); (⌜"myProject"⌝, lower)].

(** Someone's name: not one which contains that of the author, but is longer *)
Definition plain_holder (h : text) : Prop := h = author \/ (tab ∉ h /\ "\"%char ∉ h /\ ~ occurs author h /\ ~ occurs ⌜"myProject"⌝ h).
Definition plain_indent (ind : text) : Prop := Forall (fun c => c = tab \/ c = " "%char) ind.
Definition plain_name (name : text) : Prop := Forall name_char name /\ ~ occurs ⌜"myProject"⌝ name.

(** The template is the one which is shipped. *)
Record shipped (parent : path) (d : disk) : Prop := {
  shipped_main_cpp : d !! (template parent d ++ main_cpp) = Some (File shipped_main);
  shipped_main_cmake : d !! (template parent d ++ main_cmake) = Some (File shipped_cmake);
  shipped_source_cmake : d !! (template parent d ++ [⌜"Source"⌝; ⌜"projectTemplate"⌝; ⌜"CMakeLists.txt"⌝]) = Some (File shipped_library);
  shipped_git : d !! (template parent d ++ [⌜".gitignore"⌝]) = Some (File shipped_ignore)
}.

(** The files which differ, then *)
Definition adapted (year : text) (x : data) : texts :=
  let name := List.last (project_root x) [] in
  let lower := uncapitalize name in
  Texts (with_copyright year (copyright x) (instantiate (main_table (copyright x) (code_indent x) lower) (body shipped_main)))
    (instantiate (cmake_table name lower) shipped_cmake)
    (instantiate (cmake_table name lower) shipped_library)
    (match use_git x, output_file x with
     | true, _ :: _ => Some (shipped_ignore ++ [nl; nl] ++ List.last (output_file x) [])
     | _, _ => None
     end).
