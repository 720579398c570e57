(** Model of the functions which register new tests: [add_to_suite] puts constructors of tests into a suite of the
    main file, [add_to_cmake] puts a source file into a list of a CMake file
    (Source/sequoia/TestFramework/FileEditors.cpp).  Reading and writing of the files are left out: the functions map
    the text of a file to its new text. *)
From Coq Require Import Ascii String.
From stdpp Require Import list.
From Verif.Base Require Import Outcome Compare.
From Verif.Text Require Import Model.
From Verif.Edit Require Import Model.
Local Open Scope res_scope.

(** [std::string::rfind('\n', pos)]: the last line break at or before [pos] *)
Definition rfind_nl (l : text) (pos : nat) : option nat := find_last [nl] (take (pos + 1) l).

(** [std::string::insert(pos, s)], for [pos <= size()] *)
Definition insert_at (l : text) (pos : nat) (s : text) : text := take pos l ++ s ++ drop pos l.

(** FileEditors.cpp L96: the name of the suite in quotation marks, followed by a comma *)
Definition suite_pattern (name : text) : text := [quote] ++ name ++ [quote; ","%char].
(** FileEditors.cpp L101 *)
Definition preamble : text := list_ascii_of_string "add_test_suite(".
(** FileEditors.cpp L106 *)
Definition closing : text := list_ascii_of_string ");".
(** FileEditors.cpp L122 *)
Definition execute : text := list_ascii_of_string "runner.execute".

(** FileEditors.cpp L113: the line inserted for a test *)
Definition suite_line (ind t : text) : text := (ind ++ ind ++ ind) ++ t ++ [","%char; nl].

(** FileEditors.cpp L107-115: the loop over the tests; [endpos], computed once, is not adapted when the text grows.
    [npos] as [endpos] means up to the end of the text. *)
Fixpoint add_tests (l : text) (pos next_line : nat) (endpos : option nat) (ind : text) (tests : list text) : text :=
  match tests with
  | [] => l
  | t :: tests' =>
      let region := match endpos with
                    | Some e => take (e - pos) (drop pos l)
                    | None => drop pos l
                    end in
      let l' := match find_first t region with
                | Some _ => l
                | None => insert_at l (next_line + 1) (suite_line ind t)
                end in
      add_tests l' pos next_line endpos ind tests'
  end.

(** FileEditors.cpp L128-147: the text of a new suite; only called with at least one test *)
Definition build_suite (name ind : text) (tests : list text) : res text :=
  let ind0 := ind ++ ind in
  let ind1 := ind0 ++ ind in
  let fuel s := S (List.length s) in
  let str := [nl] ++ ind0 ++ list_ascii_of_string "runner.add_test_suite(" in
  let? str := append_indented (fuel (suite_pattern name)) str (suite_pattern name) ind1 in
  let? str := foldl (fun acc t => let? s := acc in append_indented (fuel (t ++ [","%char])) s (t ++ [","%char]) ind1)
                    (Ok str) (removelast tests) in
  let? str := match last tests with
              | Some t => append_indented (fuel t) str t ind1
              | None => UB
              end in
  append_indented 4 str (closing ++ [nl]) ind0.

(** FileEditors.cpp L79-161.  [None] is the empty text standing for failure, L154; the substitution L95 of nothing by
    nothing does nothing. *)
Definition add_to_suite (l name ind : text) (tests : list text) : res text :=
  match tests with
  | [] => Throw LogicError
  | _ =>
      let? out :=
        match find_first (suite_pattern name) l with
        | Some pos =>
            match rfind_nl l pos with
            | Some line_pos =>
                if decide (List.length preamble < line_pos) then
                  match find_from l preamble (line_pos - List.length preamble) with
                  | Some _ =>
                      match find_from l [nl] pos with
                      | Some next_line => Ok (add_tests l pos next_line (find_from l closing pos) ind tests)
                      | None => Ok []
                      end
                  | None => Ok []
                  end
                else Ok []
            | None => Ok []
            end
        | None =>
            match find_first execute l with
            | Some pos =>
                match rfind_nl l pos with
                | Some line_pos => let? s := build_suite name ind tests in Ok (insert_at l line_pos s)
                | None => Ok []
                end
            | None => Ok []
            end
        end in
      match out with
      | [] => Throw RuntimeError
      | _ => Ok out
      end
  end.

(** [std::string::find_first_not_of(' ', pos)] *)
Fixpoint find_nonblank (l : text) : option nat :=
  match l with
  | [] => None
  | c :: l' => if decide (c = " "%char) then S <$> find_nonblank l' else Some 0
  end.
Definition find_first_not_blank (l : text) (pos : nat) : option nat :=
  if decide (pos <= List.length l) then Nat.add pos <$> find_nonblank (drop pos l) else None.

(** [std::ranges::min] of a position, possibly [npos], and a proper position *)
Definition min_pos (p : option nat) (q : nat) : nat := match p with Some p => Nat.min p q | None => q end.

(** FileEditors.cpp L179-187.  [substr] throws when its position is beyond the end ([npos] in particular); its length
    wraps around when the entry starts after [next], and then the rest of the text is taken. *)
Fixpoint entries_loop (fuel : nat) (l : text) (end_pos next : nat) (entries : list text) : res (list text) :=
  match fuel with
  | 0 => NoFuel
  | S fuel' =>
      match find_from l [nl] next with
      | None => Ok entries
      | Some newline =>
          if decide (newline < end_pos) then
            let next' := min_pos (find_from l [nl] (newline + 1)) end_pos in
            match find_first_not_blank l (newline + 1) with
            | None => Throw OutOfRange
            | Some start =>
                let entry := if decide (start <= next') then take (next' - start) (drop start l) else drop start l in
                entries_loop fuel' l end_pos next' (entries ++ [entry])
            end
          else Ok entries
      end
  end.

(** FileEditors.cpp L189-196 *)
Definition num_spaces (open : text) : nat :=
  match find_first ["("%char] open with
  | Some p => p + 1
  | None => List.length open
  end.

(** FileEditors.cpp L163-214; [entry] is the prefix followed by the path of the file relative to the host folder,
    L179. *)
Definition add_to_cmake (l open close entry : text) : res text :=
  match find_first open l with
  | Some start =>
      match find_from l close (start + List.length open) with
      | Some end_pos =>
          let? entries := entries_loop (S (List.length l)) l end_pos (start + List.length open) [entry] in
          let? sorted := std_sort text_less entries in
          let text := concat (map (fun e => [nl] ++ repeat " "%char (num_spaces open) ++ e) sorted) in
          let start_section := min_pos (find_from l [nl] (start + List.length open)) end_pos in
          Ok (splice l start_section (end_pos - start_section) text)
      | None => Throw RuntimeError
      end
  | None => Throw RuntimeError
  end.
