(** Model of the prune files: the lists of failing and of passing tests kept between runs
    (Source/sequoia/TestFramework/DependencyAnalyzer.cpp, FileSystemUtilities.cpp). *)
From Coq Require Import Ascii NArith.
From stdpp Require Import list.
From Verif.Base Require Import Outcome Compare.
From Verif.Text Require Import Model.
From Verif.Failure Require Import Model.
Local Open Scope res_scope.

(** A path is the list of its elements; that of an absolute path begins with the root. *)
Notation path := (list text) (only parsing).

Definition slash : ascii := "/"%char.
Definition quote : ascii := """"%char.
Definition backslash : ascii := "\"%char.
Definition up : text := ["."; "."]%char.

(** [<=>] of paths: absolute paths, which begin with the root, come after relative ones; otherwise the elements are compared in
    turn. *)
Definition rooted (p : list text) : bool := bool_decide (head p = Some [slash]).
Definition path_compare (p q : list text) : comparison :=
  match rooted p, rooted q with
  | false, true => Lt
  | true, false => Gt
  | _, _ => Failure.Model.path_compare p q
  end.

(** ** Set algorithms of the standard library, for sorted ranges *)

Fixpoint set_union (l1 : list (list text)) : list (list text) -> list (list text) :=
  fix go l2 :=
    match l1, l2 with
    | [], _ => l2
    | _, [] => l1
    | x :: l1', y :: l2' =>
        match path_compare x y with
        | Lt => x :: set_union l1' l2
        | Gt => y :: go l2'
        | Eq => x :: set_union l1' l2'
        end
    end.

Fixpoint set_difference (l1 : list (list text)) : list (list text) -> list (list text) :=
  fix go l2 :=
    match l1, l2 with
    | [], _ => []
    | _, [] => l1
    | x :: l1', y :: l2' =>
        match path_compare x y with
        | Lt => x :: set_difference l1' l2
        | Gt => go l2'
        | Eq => set_difference l1' l2'
        end
    end.

Fixpoint set_intersection (l1 : list (list text)) : list (list text) -> list (list text) :=
  fix go l2 :=
    match l1, l2 with
    | [], _ => []
    | _, [] => []
    | x :: l1', y :: l2' =>
        match path_compare x y with
        | Lt => set_intersection l1' l2
        | Gt => go l2'
        | Eq => x :: set_intersection l1' l2'
        end
    end.

(** [std::ranges::unique] and [erase] *)
Fixpoint unique (l : list (list text)) : list (list text) :=
  match l with
  | x :: ((y :: _) as l') => if decide (x = y) then unique l' else x :: unique l'
  | _ => l
  end.

(** ** Files of tests *)

(** [path::generic_string] *)
Fixpoint generic_string (p : list text) : text :=
  match p with
  | [] => []
  | [w] => w
  | w :: p' => w ++ slash :: generic_string p'
  end.

(** The elements of the path with the given text; empty ones are dropped (a relative path without trailing slash). *)
Fixpoint split_slash (s : text) : list text :=
  match s with
  | [] => [[]]
  | c :: s' => if decide (c = slash) then [] :: split_slash s'
               else match split_slash s' with
                    | w :: ws => (c :: w) :: ws
                    | [] => [[c]]
                    end
  end.
Definition to_path (s : text) : list text := List.filter (fun w => match w with [] => false | _ => true end) (split_slash s).

(** FileSystemUtilities.cpp L129-150, for a relative path [p]; FileSystem.hpp L54-75 ([rfind]) *)
Fixpoint drop_up (p : list text) : list text :=
  match p with
  | w :: p' => if decide (w = up) then drop_up p' else p
  | [] => []
  end.
(** the part of [dir] from the last occurrence of [w] *)
Fixpoint from_last (w : text) (dir : list text) : list text :=
  match dir with
  | [] => []
  | d :: dir' => match from_last w dir' with
                 | [] => if decide (d = w) then dir else []
                 | r => r
                 end
  end.
Fixpoint strip_common (p dir : list text) : list text :=
  match p, dir with
  | w :: p', d :: dir' => if decide (w = d) then strip_common p' dir' else p
  | _, _ => p
  end.
Definition rebase_from (p dir : list text) : res (list text) :=
  match p with
  | [] => Ok []
  | _ =>
      match dir with
      | [] => Throw RuntimeError
      | _ =>
          match drop_up p with
          | [] => Throw RuntimeError
          | [] :: _ => Throw RuntimeError
          | w :: p' => Ok (strip_common (w :: p') (from_last w dir))
          end
      end
  end.

(** DependencyAnalyzer.cpp L543-553 *)
Fixpoint write_tests (repo : list text) (tests : list (list text)) : res text :=
  match tests with
  | [] => Ok []
  | t :: tests' =>
      let? p := rebase_from t repo in
      let? r := write_tests repo tests' in
      Ok (generic_string p ++ [nl] ++ r)
  end.

(** [std::quoted] after the opening quotation mark: up to the closing one; [None] if there is none *)
Fixpoint take_quoted (s : text) : option (text * text) :=
  match s with
  | [] => None
  | c :: s' =>
      if decide (c = quote) then Some ([], s')
      else if decide (c = backslash) then
        match s' with
        | [] => None
        | d :: s'' => match take_quoted s'' with Some (w, r) => Some (d :: w, r) | None => None end
        end
      else match take_quoted s' with Some (w, r) => Some (c :: w, r) | None => None end
  end.

(** DependencyAnalyzer.cpp L518-534: [ifile >> source] for a path reads a word, or a quoted text.  A path which
    is not read is left empty, and not added.  Fuel: each path uses at least one character. *)
Fixpoint read_tests_loop (fuel : nat) (s : text) (tests : list (list text)) : res (list (list text)) :=
  match fuel with
  | 0 => NoFuel
  | S fuel =>
      match skip_space s with
      | [] => Ok tests
      | c :: s' =>
          if decide (c = quote) then
            match take_quoted s' with
            | None => Ok tests
            | Some ([], r) => read_tests_loop fuel r tests
            | Some (w, r) => read_tests_loop fuel r (tests ++ [to_path w])
            end
          else let (w, r) := take_word (c :: s') in read_tests_loop fuel r (tests ++ [to_path w])
      end
  end.

(** A file which is not there gives no tests. *)
Definition read_tests (file : option text) (tests : list (list text)) : res (list (list text)) :=
  match file with
  | None => Ok tests
  | Some s => read_tests_loop (S (length s)) s tests
  end.

(** ** The files of a run *)

Record files := mk_files { failures : option text; passes : option text; stamp : option nat }.

(** DependencyAnalyzer.cpp L573-583, and [prepare], L466-472: after a run of all tests *)
Definition update_all (repo : list text) (f : files) (failed : list (list text)) (time : nat) : res files :=
  let? t := write_tests repo (sort_by path_compare failed) in
  Ok (mk_files (Some t) None (Some time)).

(** DependencyAnalyzer.cpp L585-613: after a filtered run *)
Definition update_filtered (repo : list text) (f : files) (executed failed : list (list text)) : res files :=
  let executed := sort_by path_compare executed in
  let failed := sort_by path_compare failed in
  let? previous_passes := read_tests (passes f) [] in
  let trial := set_union executed previous_passes in
  let passing := set_difference trial failed in
  let? previous_failures := read_tests (failures f) [] in
  let remaining := set_difference previous_failures passing in
  let all_failures := set_union remaining failed in
  let? tf := write_tests repo all_failures in
  let? tp := write_tests repo passing in
  Ok (mk_files (Some tf) (Some tp) (stamp f)).

(** DependencyAnalyzer.cpp L474-488; [reps] are the files of the repetitions *)
Fixpoint read_failures (reps : list files) (acc : list (list text)) : res (list (list text)) :=
  match reps with
  | [] => Ok acc
  | r :: reps' => let? acc' := read_tests (failures r) acc in read_failures reps' acc'
  end.
Definition aggregate_failures (reps : list files) : res (list (list text)) :=
  let? all := read_failures reps [] in Ok (unique (sort_by path_compare all)).

(** DependencyAnalyzer.cpp L491-515 *)
Fixpoint intersect_passes (reps : list files) (acc : list (list text)) : res (option (list (list text))) :=
  match reps with
  | [] => Ok (Some acc)
  | r :: reps' =>
      match passes r with
      | None => Ok None
      | Some s => let? tests := read_tests (Some s) [] in intersect_passes reps' (set_intersection tests acc)
      end
  end.
Definition aggregate_passes (reps : list files) : res (option (list (list text))) :=
  match reps with
  | [] => Ok (Some [])
  | r :: reps' =>
      match passes r with
      | None => Ok None
      | Some s => let? tests := read_tests (Some s) [] in intersect_passes reps' tests
      end
  end.

(** DependencyAnalyzer.cpp L622-653 *)
Definition aggregate (repo : list text) (active : bool) (f : files) (reps : list files) (time : nat) : res files :=
  let? failing := aggregate_failures reps in
  if active then update_all repo f failing time
  else
    let? p := aggregate_passes reps in
    match p with
    | Some ps => update_filtered repo f (ps ++ failing) failing
    | None => update_all repo f failing time
    end.
