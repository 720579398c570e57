(** Model of the search for include directives, get_includes of
    Source/sequoia/TestFramework/DependencyAnalyzer.cpp.

    A stream is modelled by the characters not yet read: at the end of its characters [get] gives eof whatever the flags,
    and [peek] either sets eofbit or, if that is set, failbit. *)
From Coq Require Import Ascii String.
From stdpp Require Import list.
From Verif.Base Require Import Outcome.
From Verif.Text Require Import Model.
From Verif.Failure Require Import Model.
Local Open Scope res_scope.

Definition slash : ascii := "/"%char.
Definition star : ascii := "*"%char.
Definition hash : ascii := "#"%char.
Definition quote : ascii := """"%char.
Definition opening : ascii := "<"%char.
Definition closing : ascii := ">"%char.
Definition dot : ascii := "."%char.
Definition include_word : text := list_ascii_of_string "include".

(** from_stream, L88-L104: the characters before the next of [ds], and those after it. *)
Fixpoint from_stream (ds : list ascii) (s : text) : text * text :=
  match s with
  | [] => ([], [])
  | c :: s => if decide (c ∈ ds) then ([], s) else let (w, r) := from_stream ds s in (c :: w, r)
  end.

(** L138-L146: after the star of the comment. *)
Fixpoint skip_block (s : text) : text :=
  match s with
  | [] => []
  | c :: s =>
      if decide (c = star) then
        match s with
        | d :: r => if decide (d = slash) then r else skip_block s
        | [] => []
        end
      else skip_block s
  end.

(** fs::path::filename *)
Fixpoint filename (s : text) : text :=
  match s with
  | [] => []
  | c :: r => if decide (slash ∈ s) then filename r else s
  end.

(** fs::path::has_extension: the file name is not [..] and has a dot which is not its first character. *)
Definition has_extension (s : text) : bool :=
  let f := filename s in
  bool_decide (f <> [dot; dot]) && bool_decide (dot ∈ tail f).

(** L173-L181; [dir] is file.parent_path().  Relative names without elements before the last one are those without
    slash. *)
Definition resolve (dir s : text) : text :=
  if decide (slash ∈ s) then s
  else match last dir with
       | None => s
       | Some c => if decide (c = slash) then dir ++ s else dir ++ [slash] ++ s
       end.

Definition included (dir s : text) : list text := if has_extension s then [resolve dir s] else [].

(** get_includes, L117-L207, for a file which can be opened, with the given text. *)
Fixpoint get_includes (fuel : nat) (dir cutoff s : text) : res (list text) :=
  match s with
  | [] => Ok []
  | c :: s =>
      match fuel with
      | O => NoFuel
      | S fuel =>
          if decide (c = slash) then                                                (* L130 *)
            match s with
            | d :: r =>
                if decide (d = slash) then get_includes fuel dir cutoff (snd (from_stream [nl] s))  (* L132-L135 *)
                else if decide (d = star) then get_includes fuel dir cutoff (skip_block r)          (* L136-L147 *)
                else get_includes fuel dir cutoff s
            | [] => get_includes fuel dir cutoff s
            end
          else if decide (c = hash) then                                            (* L149 *)
            let (w, r) := from_stream [" "%char; nl] s in                           (* L152 *)
            if decide (w = include_word) then
              match skip_space r with                                               (* L156 *)
              | [] => get_includes fuel dir cutoff []                               (* L158 *)
              | ch :: r =>
                  if decide (ch = quote) then                                       (* L162-L165 *)
                    let (name, r) := from_stream [quote] r in
                    let? l := get_includes fuel dir cutoff r in Ok (included dir name ++ l)
                  else if decide (ch = opening) then                                (* L166-L169 *)
                    let (name, r) := from_stream [closing] r in
                    let? l := get_includes fuel dir cutoff r in Ok (included dir name ++ l)
                  else get_includes fuel dir cutoff r                               (* L171 *)
              end
            else get_includes fuel dir cutoff r
          else if decide (head cutoff = Some c) then                                (* L188 *)
            let (w, r) := from_stream [nl] (c :: s) in                              (* L190-L191 *)
            match find_first cutoff w with
            | Some _ => Ok []                                                       (* L192-L195 *)
            | None => get_includes fuel dir cutoff r
            end
          else get_includes fuel dir cutoff s
      end
  end.
