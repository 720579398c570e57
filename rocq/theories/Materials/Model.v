(** Model of the materials of tests: [set_materials] (Source/sequoia/TestFramework/TestRunner.cpp L275-303) and
    [individual_materials_paths] (IndividualTestPaths.cpp L95-147).  Paths are lists of names.  There are no
    links; every operation on files which is possible succeeds. *)
From Coq Require Import Ascii String.
From stdpp Require Import list gmap strings.
From Verif.Base Require Import Outcome.
From Verif.Text Require Import Model.
From Verif.SoftUpdate Require Model.
From Verif.Prune Require Model.
Local Open Scope res_scope.
Local Notation "⌜ s ⌝" := (list_ascii_of_string s%string).

Notation path := (list text) (only parsing).
Inductive entry := File (contents : text) | Folder.

(** A file system *)
Notation disk := (gmap (list text) entry) (only parsing).

(** [fs::exists] *)
Definition present (d : disk) (p : path) : bool := match d !! p with Some _ => true | None => false end.

(** What [p] is below [dir] *)
Fixpoint below (dir p : path) : option path :=
  match dir, p with
  | [], _ => Some p
  | x :: dir', y :: p' => if decide (x = y) then below dir' p' else None
  | _ :: _, [] => None
  end.

(** [fs::remove_all] *)
Definition remove_all (d : disk) (p : path) : disk := filter (fun x => below p x.1 = None) d.

(** [fs::create_directories]: from the top; fails at the first file *)
Fixpoint create_from (d : disk) (done todo : path) : res disk :=
  match todo with
  | [] => Ok d
  | x :: todo' =>
      let p := done ++ [x] in
      match d !! p with
      | Some Folder => create_from d p todo'
      | Some (File _) => Throw RuntimeError
      | None => create_from (<[p := Folder]> d) p todo'
      end
  end.
Definition create_directories (d : disk) (p : path) : res disk := create_from d [] p.

(** [fs::create_directory] *)
Definition create_directory (d : disk) (p : path) : res disk :=
  match d !! p with
  | Some Folder => Ok d
  | Some (File _) => Throw RuntimeError
  | None => match d !! removelast p with Some Folder => Ok (<[p := Folder]> d) | _ => Throw RuntimeError end
  end.

(** Everything at [from] and below, moved to [to] *)
Definition copies (d : disk) (from to : path) : list (path * entry) :=
  omap (fun x : path * entry => match below from x.1 with Some r => Some (to ++ r, x.2) | None => None end) (map_to_list d).

(** [fs::copy] with the options recursive and overwrite_existing: a file is copied into a folder which is there;
    otherwise the parent of the target has to be there.  What lies below the target already is replaced in case
    of the same names: nothing does when it is called here. *)
Definition copy (d : disk) (from to : path) : res disk :=
  match d !! from, d !! to with
  | None, _ => Throw RuntimeError
  | Some (File c), Some Folder => Ok (<[to ++ [List.last from []] := File c]> d)
  | Some Folder, Some (File _) => Throw RuntimeError
  | Some _, None =>
      match d !! removelast to with Some Folder => Ok (list_to_map (copies d from to) ∪ d) | _ => Throw RuntimeError end
  | Some _, Some _ => Ok (list_to_map (copies d from to) ∪ d)
  end.

Section locations.
  (** The folders TestMaterials and output/TestsTemporaryData *)
  Context (materials temporary : path).

  (** IndividualTestPaths.cpp L101-104; the materials of a test with source [rel], relative and without extension *)
  Definition original_materials (rel : path) : path := materials ++ rel.
  Definition temporary_materials (rel : path) : path := temporary ++ rel.

  (** L141-147.  An empty path stands for none. *)
  Definition prediction (d : disk) (rel : path) : path :=
    let p := original_materials rel ++ [⌜"Prediction"⌝] in if present d p then p else [].
  Definition predicts (d : disk) (rel : path) : bool :=
    match prediction d rel with [] => false | p => present d p end.

  (** L106-139; an [individual_materials_paths] for which [m_Materials] is empty does not occur here. *)
  Definition working (d : disk) (rel : path) : path :=
    if predicts d rel then temporary_materials rel ++ [⌜"WorkingCopy"⌝] else temporary_materials rel.
  Definition original_working (d : disk) (rel : path) : path :=
    if predicts d rel then original_materials rel ++ [⌜"WorkingCopy"⌝] else original_materials rel.
  Definition original_auxiliary (d : disk) (rel : path) : path :=
    if predicts d rel then original_materials rel ++ [⌜"Auxiliary"⌝] else [].
  Definition auxiliary (d : disk) (rel : path) : path :=
    if predicts d rel then temporary_materials rel ++ [⌜"Auxiliary"⌝] else [].

  (** TestRunner.cpp L275-303.  [paths] are the working copies which have been set already. *)
  Definition set_materials (d : disk) (paths : list path) (rel : path) : res (disk * list path) :=
    if negb (present d (original_materials rel)) then Ok (d, paths)                            (* L278 *)
    else
      let w := working d rel in                                                                (* L280 *)
      if bool_decide (w ∈ paths) then Ok (d, paths)                                             (* L281 *)
      else
        let d := remove_all d (temporary_materials rel) in                                     (* L283 *)
        let? d := create_directories d (temporary_materials rel) in                            (* L284 *)
        let? d := (if present d (original_working d rel) then copy d (original_working d rel) w (* L286-289 *)
                   else create_directory d w) in                                               (* L292 *)
        let aux := original_auxiliary d rel in                                                 (* L295 *)
        let? d := (match aux with
                   | [] => Ok d
                   | _ => if present d aux then copy d aux (auxiliary d rel) else Ok d         (* L297 *)
                   end) in
        Ok (d, paths ++ [w]).                                                                  (* L300 *)

  (** The tests of a suite, TestRunner.hpp L384-417, or all tests when they are reset, TestRunner.cpp L972-999 *)
  Fixpoint set_suite (d : disk) (paths : list path) (rels : list path) : res (disk * list path) :=
    match rels with
    | [] => Ok (d, paths)
    | rel :: rels' => let? (d, paths) := set_materials d paths rel in set_suite d paths rels'
    end.
  (** Suites added one after the other: each starts with no working copies, L395. *)
  Fixpoint set_suites (d : disk) (suites : list (list path)) : res disk :=
    match suites with
    | [] => Ok d
    | s :: suites' => let? (d, _) := set_suite d [] s in set_suites d suites'
    end.
End locations.

(** [path::replace_extension()] *)
Definition without_extension (p : path) : path :=
  match p with [] => [] | _ => removelast p ++ [Verif.SoftUpdate.Model.stem (List.last p [])] end.

(** IndividualTestPaths.cpp L97: where the materials of a test are, for a source file given by a relative path *)
Definition relative_materials (source repo : path) : res path :=
  Verif.Prune.Model.rebase_from (without_extension source) repo.
