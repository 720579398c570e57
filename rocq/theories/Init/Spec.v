(** What is claimed of the creation of projects (C100). *)
From Coq Require Import Ascii String.
From stdpp Require Import list gmap strings.
From Verif.Base Require Import Outcome.
From Verif.Text Require Import Model.
From Verif.Materials Require Import Model Spec.
From Verif.Creator Require Import Model.
From Verif.Init Require Import Model.
Local Notation "⌜ s ⌝" := (list_ascii_of_string s%string).

#[global] Instance entry_eq_dec : EqDecision entry.
Proof. solve_decision. Defined.

(** *** What is acceptable *)

Definition ignored : list text := [⌜".DS_Store"⌝; ⌜".keep"⌝].
Definition letter_or_digit (c : ascii) : Prop :=
  (65 <= code c <= 90)%nat \/ (97 <= code c <= 122)%nat \/ (48 <= code c <= 57)%nat.
Definition name_char (c : ascii) : Prop := letter_or_digit c \/ c = "_"%char \/ c = "-"%char.

(** The path is absolute, and free; its last name is of the right kind; so is the indent. *)
Record acceptable (d : disk) (x : data) : Prop := {
  acceptable_root : exists dir name, project_root x = ⌜"/"⌝ :: dir ++ [name] /\ name <> [] /\ Forall name_char name;
  acceptable_free : d !! project_root x = None \/
    (d !! project_root x = Some Folder /\ forall n, is_Some (d !! (project_root x ++ [n])) -> n ∈ ignored);
  acceptable_indent : Forall (fun c => c = tab \/ c = " "%char) (code_indent x)
}.

(** *** What is created *)

(** What of sequoia, which is in [source], is copied: if this is the project which is running, not the build, and of the output
    only two folders. *)
Definition part (d : disk) (parent source r : path) : bool :=
  match r with
  | [] => true
  | n :: s =>
      if decide (source = parent /\ n = ⌜"build"⌝ /\ d !! (source ++ [n]) = Some Folder) then false
      else if decide (source = parent /\ n = ⌜"output"⌝ /\ d !! (source ++ [n]) = Some Folder) then
        match s with
        | [] => true
        | k :: _ => bool_decide (k ∈ [⌜"DiagnosticsOutput"⌝; ⌜"TestSummaries"⌝] /\ d !! (source ++ [n; k]) = Some Folder)
        end
      else true
  end.

Section created.
  Context (parent : path) (d : disk) (x : data).

  Notation root := (project_root x).
  Notation name := (List.last (project_root x) []).
  Notation tmpl := (template parent d).

  (** Where sequoia is *)
  Definition sequoia : path := match d !! sequoia_root parent with Some _ => sequoia_root parent | None => parent end.

  (** The template is complete. *)
  Record complete : Prop := {
    complete_tmpl : d !! tmpl = Some Folder;
    complete_source : d !! (tmpl ++ [⌜"Source"⌝]) = Some Folder;
    complete_project : d !! (tmpl ++ [⌜"Source"⌝; ⌜"projectTemplate"⌝]) = Some Folder;
    complete_other : uncapitalize name <> ⌜"projectTemplate"⌝ -> d !! (tmpl ++ source_folder root) = None;
    complete_dependency : d !! (tmpl ++ [⌜"dependencies"⌝; ⌜"sequoia"⌝]) = Some Folder;
    complete_keep : forall n, is_Some (d !! (tmpl ++ [⌜"dependencies"⌝; ⌜"sequoia"⌝; n])) -> n = ⌜".keep"⌝;
    complete_file : d !! (tmpl ++ [⌜"dependencies"⌝; ⌜"sequoia"⌝; ⌜".keep"⌝]) <> Some Folder;
    complete_top : forall n, n ∈ ignored -> d !! (tmpl ++ [n]) = None;
    complete_sequoia : d !! (sequoia ++ [⌜".keep"⌝]) = None
  }.

  (** The new texts of the files which are changed: those of the main function, of the two files for CMake, and, if it is, of
      .gitignore *)
  Record texts := Texts { new_main : text; new_cmake : text; new_library : text; new_ignore : option text }.

  Record changed (year : text) (n : texts) : Prop := {
    changed_main : exists c, d !! (tmpl ++ main_cpp) = Some (File c) /\ main_text year (copyright x) (code_indent x) name c = Ok (new_main n);
    changed_cmake : exists c, d !! (tmpl ++ main_cmake) = Some (File c) /\ set_proj_name c name = Ok (new_cmake n);
    changed_library : exists c, d !! (tmpl ++ [⌜"Source"⌝; ⌜"projectTemplate"⌝; ⌜"CMakeLists.txt"⌝]) = Some (File c)
      /\ set_proj_name c name = Ok (new_library n);
    changed_ignore : match use_git x, output_file x with
      | true, _ :: _ => exists c, d !! (tmpl ++ [⌜".gitignore"⌝]) = Some (File c) /\ new_ignore n = Some (c ++ [nl; nl] ++ List.last (output_file x) [])
      | _, _ => new_ignore n = None
      end
  }.

  (** What is at [r] in the new project: sequoia; the files which are changed; the folder which is renamed; what was there, and
      what is in the template. *)
  Definition expected (n : texts) (r : path) : option entry :=
    match below [⌜"dependencies"⌝; ⌜"sequoia"⌝] r with
    | Some (k :: s) => if part d parent sequoia (k :: s) then d !! (sequoia ++ k :: s) else None
    | _ =>
        if decide (r = main_cpp) then Some (File (new_main n))
        else if decide (r = main_cmake) then Some (File (new_cmake n))
        else if decide (r = source_folder root ++ [⌜"CMakeLists.txt"⌝]) then Some (File (new_library n))
        else if decide (r = [⌜".gitignore"⌝] /\ is_Some (new_ignore n)) then File <$> new_ignore n
        else match below (source_folder root) r, below [⌜"Source"⌝; ⌜"projectTemplate"⌝] r with
             | Some s, _ => d !! (tmpl ++ [⌜"Source"⌝; ⌜"projectTemplate"⌝] ++ s)
             | None, Some _ => None
             | None, None => match d !! (root ++ r) with Some e => Some e | None => d !! (tmpl ++ r) end
             end
    end.
End created.
