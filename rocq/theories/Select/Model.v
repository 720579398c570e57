(** Model of the selection of tests by files, Source/sequoia/TestFramework/TestRunner.cpp L325-350 (path_equivalence), and of what
    it needs: FileSystem/FileSystem.hpp L19-53 (normal_path, back), FileSystemUtilities.cpp L92-150 (find_in_tree, rebase_from).

    A path is the list of its elements, without a trailing separator; that of an absolute path starts with a slash.  There are no
    symbolic links. *)
From Coq Require Import Ascii String.
From stdpp Require Import list.
From Verif.Base Require Import Outcome.
From Verif.Text Require Import Model.
From Verif.Prune Require Model.
From Verif.Outputs Require Model.
Local Open Scope res_scope.
Local Notation "⌜ s ⌝" := (list_ascii_of_string s%string).
Notation path := (list text) (only parsing).
Local Notation up := ⌜".."⌝.
Local Notation here := ⌜"."⌝.

(** [path::lexically_normal], FileSystem.hpp L24-26 *)
Definition normal_step (acc : path) (x : text) : path :=
  if decide (x = here) then acc
  else if decide (x = up) then
    match last acc with
    | None => acc ++ [up]
    | Some y => if decide (y = up) then acc ++ [up] else if decide (y = Outputs.Model.root) then acc else removelast acc
    end
  else acc ++ [x].
Definition normal (p : path) : path :=
  match p with
  | [] => []
  | _ => match fold_left normal_step p [] with [] => [here] | q => q end
  end.

(** [fs::relative] for absolute and normal paths: [path::lexically_relative] *)
Definition relative (p dir : path) : path :=
  match replicate (length (Prune.Model.strip_common dir p)) up ++ Prune.Model.strip_common p dir with [] => [here] | q => q end.

(** A folder: what there is in its place; the paths of all entries in it and below, in the order in which
    recursive_directory_iterator finds them *)
Inductive place := Missing | NoFolder | Folder (entries : list path).

(** FileSystemUtilities.cpp L129-150; [t]: what there is in place of [dir] *)
Definition rebase (t : place) (p dir : path) : res path :=
  match p, dir, t with
  | [], _, _ => Ok []                                                                 (* L131-132 *)
  | _, [], _ => Throw RuntimeError                                                    (* L134-135 *)
  | _, _, NoFolder => Throw RuntimeError                                              (* L137-138 *)
  | _, _, _ =>
      if Outputs.Model.is_absolute p && Outputs.Model.is_absolute dir then Ok (relative p dir)    (* L140-141 *)
      else Prune.Model.rebase_from p dir                                              (* L143-149 *)
  end.

(** FileSystemUtilities.cpp L101-120 *)
Definition ends (p to_find : path) : bool :=
  bool_decide (length to_find <= length p) && bool_decide (drop (length p - length to_find) p = to_find).
(** L92-127 *)
Definition find_in_tree (t : place) (to_find : path) : res path :=
  match t with
  | Folder entries =>
      match to_find with
      | [] => Ok []
      | _ => Ok (default [] (List.find (fun p => ends p to_find) entries))
      end
  | _ => Throw RuntimeError                                                           (* L95 *)
  end.

(** TestRunner.cpp L325-350; [t]: what there is in place of the repository *)
Definition path_equivalence (t : place) (repo : path) (selected filepath : path) : res bool :=
  match last selected, last filepath with
  | Some x, Some y =>
      if decide (x <> y) then Ok false                                                (* L328-329 *)
      else if decide (filepath = selected) then Ok true                               (* L331 *)
      else
        match repo with
        | [] => Ok false                                                              (* L337 *)
        | _ =>
            let? a := rebase t selected repo in
            let? b := rebase t filepath repo in
            if decide (a = b) then Ok true                                            (* L339-340 *)
            else
              let? p := find_in_tree t selected in                                    (* L342 *)
              match p with
              | [] => Ok false
              | _ =>
                  let? a := rebase t p repo in
                  let? b := rebase t filepath repo in
                  Ok (bool_decide (a = b))                                            (* L344-345 *)
              end
        end
  | _, _ => Ok false
  end.

(** Suite.hpp L397 with test_to_path: TestRunner.hpp L308-313.  [selected] is what has been given, [file] the source of a test *)
Definition selects (t : place) (repo selected file : path) : res bool := path_equivalence t repo (normal selected) (normal file).
