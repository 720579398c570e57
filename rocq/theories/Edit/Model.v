(** Model of the functions which edit source files
    (Source/sequoia/TestFramework/FileEditors.cpp).  Reading and writing of the file are left out: the functions map
    the text of the file to its new text. *)
From Coq Require Import Ascii String.
From stdpp Require Import list.
From Verif.Base Require Import Outcome Compare.
From Verif.Text Require Import Model.
Local Open Scope res_scope.

(** [std::string::rfind(from)] *)
Fixpoint find_last (from l : text) : option nat :=
  match l with
  | [] => if starts_with from [] then Some 0 else None
  | _ :: l' => match find_last from l' with
               | Some i => Some (S i)
               | None => if starts_with from l then Some 0 else None
               end
  end.

(** [std::ranges::sort]: the comparison has to be a strict weak ordering on the elements, otherwise the behaviour is
    undefined.  (Equivalent elements, the order of which is not specified, keep their order here.) *)
Section sort.
  Context {A : Type} (lt : A -> A -> bool).
  Definition weak_order_on (l : list A) : bool :=
    forallb (fun x => negb (lt x x)) l &&
    forallb (fun x => forallb (fun y => forallb (fun z =>
      (negb (lt x y && lt y z) || lt x z) &&
      (negb (negb (lt x y) && negb (lt y x) && negb (lt y z) && negb (lt z y)) || (negb (lt x z) && negb (lt z x)))) l) l) l.
  Fixpoint insert_sorted (x : A) (l : list A) : list A :=
    match l with
    | [] => [x]
    | y :: l' => if lt y x then y :: insert_sorted x l' else x :: l
    end.
  Definition std_sort (l : list A) : res (list A) := if weak_order_on l then Ok (foldr insert_sorted [] l) else UB.
End sort.

Definition include : text := list_ascii_of_string "#include".
Definition quote : ascii := """"%char.
Definition has (c : ascii) (s : text) : bool := if decide (c ∈ s) then true else false.
Definition text_less (a b : text) : bool := match text_compare a b with Lt => true | _ => false end.

(** FileEditors.cpp L48-54: note that '<' is sought in the one, and '>' in the other *)
Definition include_less (l r : text) : bool :=
  if has "<"%char l && negb (has ">"%char r) then false
  else if negb (has "<"%char l) && has ">"%char r then true
  else text_less l r.

(** FileEditors.cpp L35-46 *)
Fixpoint collect (fuel : nat) (l : text) (end_block pos : nat) (entries : list text) : res (list text) :=
  match fuel with
  | 0 => NoFuel
  | S fuel =>
      match find_from l include pos with
      | None => Ok entries
      | Some start =>
          if decide (start < end_block) then
            match find_from l [nl] start with
            | None => Ok entries
            | Some e => collect fuel l end_block e (if decide (e <= end_block) then entries ++ [take (e + 1 - start) (drop start l)] else entries)
            end
          else Ok entries
      end
  end.

(** FileEditors.cpp L24-77 *)
Definition add_include (l : text) (path : text) : res text :=
  let entry := include ++ [" "%char; quote] ++ path ++ [quote; nl] in
  let last_include := find_last include l in
  let end_block := match last_include with
                   | Some p => default (length l) (find_from l [nl] p)
                   | None => length l
                   end in
  let? entries := match last_include with
                  | Some _ => collect (S (length l)) l end_block 0 [entry]
                  | None => Ok [entry]
                  end in
  let? sorted := std_sort include_less entries in
  match find_from l include 0 with
  | Some first => Ok (splice l first (end_block + 1 - first) (concat sorted))
  | None => Ok (splice l end_block 0 (concat sorted))
  end.
