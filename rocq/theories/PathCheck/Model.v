(** Model of the comparison of paths: [value_tester<std::filesystem::path>]
    (Source/sequoia/TestFramework/ConcreteTypeCheckers.hpp L331-552, FileEditors.cpp L217-258, FileSystem.hpp L46-53).
    Files and folders are those of [SoftUpdate.Model]; links, other kinds of entries, and files which cannot be read, are not
    modelled, nor are the customisations of the comparison of files. *)
From Coq Require Import Ascii String.
From stdpp Require Import list.
From Verif.Base Require Import Outcome Compare.
From Verif.Text Require Import Model.
From Verif.SoftUpdate Require Import Model.
From Verif.TextCheck Require Model.
Local Open Scope res_scope.

Notation report := TextCheck.Model.report.
Notation compare_texts := TextCheck.Model.compare_texts.

#[global] Instance kind_decision : EqDecision kind.
Proof. solve_decision. Defined.

(** What a failure is about; it comes with the place, the names which lead there from the paths which are compared. *)
Inductive issue :=
| WrongType (obtained prediction : option kind)
| WrongName (obtained prediction : text)
| WrongNumber (obtained prediction : nat)
| WrongEntry (obtained prediction : option text)
| WrongContents (r : report).
Definition failure : Type := list text * issue.

(** ConcreteTypeCheckers.hpp L449-453 *)
Definition ds_store : text := list_ascii_of_string ".DS_Store".
Definition is_excluded (n : text) : bool :=
  if decide (n = ds_store) then true else if decide (n = keep) then true
  else if decide (extension n = seqpat) then true else false.

(** L501-517: the entries are those of one folder, so that comparing paths comes down to comparing names. *)
Definition names (d : dir) : list text :=
  sort_by text_compare (List.filter (fun n => negb (is_excluded n)) (map fst d)).

(** [std::ranges::mismatch], L530-546: the first pair of names which differ *)
Fixpoint first_mismatch (l l' : list text) : option (option text * option text) :=
  match l, l' with
  | [], [] => None
  | x :: m, y :: m' => if decide (x = y) then first_mismatch m m' else Some (Some x, Some y)
  | x :: _, [] => Some (Some x, None)
  | [], y :: _ => Some (None, Some y)
  end.

Section check.
  (** [std::regex_replace] by the empty text *)
  Variable regex_remove : text -> text -> text.
  (** whether names are compared: for equivalence, but not for weak equivalence, L407-444 *)
  Variable strong : bool.

  (** L335-348 and FileEditors.cpp L217-258: the files [n] with contents [a], and [n'] with [b] in the folder [t] *)
  Definition check_file (p : list text) (n a : text) (t : dir) (n' b : text) : res (list failure) :=
    let rs := if decide (extension n = seqpat) then [] else expressions (entry t (supplement n')) in
    let? o := compare_texts (reduce regex_remove rs a) (reduce regex_remove rs b) in
    Ok (match o with Some r => [(p, WrongContents r)] | None => [] end).

  Fixpoint collect (f : text -> res (list failure)) (l : list text) : res (list failure) :=
    match l with
    | [] => Ok []
    | m :: l' => let? x := f m in let? y := collect f l' in Ok (x ++ y)
    end.

  (** L463-552.  A path has a name, the last part of it, unless it is empty; and a node, unless there is no such file or folder.
      [t] is the folder with the prediction.  Fuel: the depth of the folders. *)
  Fixpoint check_path (fuel : nat) (p : list text) (n : option text) (e : option node) (t : dir) (n' : option text) (e' : option node)
      : res (list failure) :=
    match fuel with
    | 0 => NoFuel
    | S fuel =>
        if decide (kind_of <$> e = kind_of <$> e') then
          match n, n' with
          | None, _ => Ok []
          | Some _, None => Throw RuntimeError
          | Some n, Some n' =>
              if strong && negb (bool_decide (n = n')) then Ok [(p, WrongName n n')]
              else match e, e' with
                   | Some (File a), Some (File b) => check_file p n a t n' b
                   | Some (Dir d), Some (Dir d') =>
                       let l := names d in
                       let l' := names d' in
                       let number := if decide (List.length l = List.length l') then []
                                     else [(p, WrongNumber (List.length l) (List.length l'))] in
                       match first_mismatch l l' with
                       | Some m => Ok (number ++ [(p, WrongEntry (fst m) (snd m))])
                       | None => let? r := collect (fun m => check_path fuel (p ++ [m]) (Some m) (entry d m) d' (Some m) (entry d' m)) l in
                                 Ok (number ++ r)
                       end
                   | _, _ => Throw LogicError
                   end
          end
        else Ok [(p, WrongType (kind_of <$> e) (kind_of <$> e'))]
    end.
End check.
