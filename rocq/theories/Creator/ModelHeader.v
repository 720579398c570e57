(** Model of the search for the header of a nascent test, and of where the test is put: Source/sequoia/TestFramework/TestCreator.cpp
    L254-274, L336-349, L376-401, L519-521, L720-722; TestCreator.hpp L157.

    Paths as in Select/Model.v; a file name is not [".."] here. *)
From Coq Require Import Ascii String.
From stdpp Require Import list.
From Verif.Base Require Import Outcome.
From Verif.Text Require Import Model.
From Verif.Prune Require Model.
From Verif.Outputs Require Model.
From Verif.SoftUpdate Require Model.
From Verif.Select Require Import Model.
Local Open Scope res_scope.
Local Notation "⌜ s ⌝" := (list_ascii_of_string s%string).

(** TestCreator.hpp L157 *)
Definition header_extensions : list text := [⌜".hpp"⌝; ⌜".h"⌝; ⌜".hxx"⌝].
(** [path::extension] *)
Definition extension_of (p : path) : text := SoftUpdate.Model.extension (default [] (last p)).

(** L263-273 *)
Fixpoint try_extensions (t : place) (filename : path) (exts : list text) : res path :=
  match exts with
  | [] => Ok []
  | e :: exts =>
      if decide (e <> extension_of filename) then
        let? p := find_in_tree t (Outputs.Model.replace_extension filename e) in
        match p with [] => try_extensions t filename exts | _ => Ok p end
      else try_extensions t filename exts
  end.

(** L254-274; [t]: what there is in place of the source repository *)
Definition build_source_path (t : place) (filename : path) : res path :=
  match filename with
  | [] => Throw RuntimeError                                                          (* L257-258 *)
  | _ =>
      let? p := find_in_tree t filename in                                            (* L260-261 *)
      match p with [] => try_extensions t filename header_extensions | _ => Ok p end
  end.

(** [path::generic_string] *)
Definition generic (p : path) : text :=
  if Outputs.Model.is_absolute p then Outputs.Model.root ++ Prune.Model.generic_string (tail p) else Prune.Model.generic_string p.

(** L386-401 *)
Fixpoint alternatives (header : path) (exts : list text) : text :=
  match exts with
  | [] => []
  | e :: exts =>
      (if decide (e <> extension_of header) then ⌜" or "⌝ ++ generic (Outputs.Model.replace_extension header e) else []) ++ alternatives header exts
  end.
Definition source_path_error (repo tests header : path) : text :=
  ⌜"Unable to locate file "⌝ ++ generic header ++ alternatives header header_extensions ++
  ⌜" in the source repository
"⌝ ++ generic (relative repo tests).

(** L519-521 (with the option source_dir) and L720-722; [t]: what there is in place of [project] *)
Definition absent_header (t : place) (project source_dir filename : path) : res path :=
  if Outputs.Model.is_absolute filename then Ok filename
  else let? r := rebase t (source_dir ++ filename) project in Ok (project ++ r).

(** L337-347: the header, or the text of the exception; [absent]: with gen_source_option::yes, what is generated *)
Definition locate (t : place) (repo tests : path) (absent : option (path -> res path)) (header : path) : res (path + text) :=
  let? p := build_source_path t header in
  match p with
  | [] =>
      match absent with
      | Some f =>
          let? q := f header in
          match q with [] => Ok (inr (source_path_error repo tests header)) | _ => Ok (inl q) end
      | None => Ok (inr (source_path_error repo tests header))
      end
  | _ => Ok (inl p)
  end.

(** L376-384: the folder of the test as it is written, and how the header is included *)
Definition host_dir (tests project source : path) : path := removelast (tests ++ relative source project).
Definition header_path (repo source : path) : path := relative source repo.
