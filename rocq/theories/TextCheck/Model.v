(** Model of the comparison of strings by the test framework: [value_tester] for [std::basic_string_view]
    (Source/sequoia/TestFramework/ConcreteTypeCheckers.hpp L75-217), on which that for [std::basic_string] is based.

    Simplifications: characters are [char]s; of the report, the texts which are the same for all strings are left out, and so
    is what further advisors add. *)
From Coq Require Import Ascii String.
From stdpp Require Import list.
From Verif.Base Require Import Outcome.
From Verif.Text Require Import Model.
From Verif.Edit Require Import Model ModelSuite.
Local Open Scope res_scope.

(** [std::ranges::mismatch], L172: how far both iterators get *)
Fixpoint mismatch (l r : text) : nat :=
  match l, r with
  | a :: l', b :: r' => if decide (a = b) then S (mismatch l' r') else 0
  | _, _ => 0
  end.

(** L125: [defaultOffset] and [defaultCount] *)
Definition default_offset : nat := 30.
Definition default_count : nat := 60.

(** L128 *)
Definition newline_backwards (pos : nat) (sv : text) : option nat :=
  if decide (pos < List.length sv) then rfind_nl sv pos else None.

(** [std::ranges::min] of positions, [npos] being the greatest, L130 *)
Definition min_npos (p q : option nat) : option nat :=
  match p, q with
  | Some p, Some q => Some (Nat.min p q)
  | Some p, None | None, Some p => Some p
  | None, None => None
  end.

(** L126-136 *)
Definition start_pos (obtained prediction : text) (pos : nat) : nat :=
  let sz := Nat.min (List.length obtained) (List.length prediction) in
  let loc := min_npos (newline_backwards pos prediction) (newline_backwards pos obtained) in
  let offset := match loc with Some loc => Nat.min default_offset (pos - loc) | None => default_offset end in
  if decide (pos < offset) then 0
  else if decide (pos < sz) then pos - offset
  else sz - Nat.min sz offset.

Definition dots : text := list_ascii_of_string "...".
Definition escaped : text := list_ascii_of_string "\n".

(** [make], L140-166, with the [substr] of L89: the text shown, and whether it is truncated at its end *)
Definition make (sv : text) (lpos : nat) : res (text * bool) :=
  let newline := bool_decide (sv !! lpos = Some nl) in
  let mess := (if decide (0 < lpos) then dots else []) ++ (if newline then escaped else []) in
  let count := match find_from sv [nl] (lpos + 1) with Some rpos => rpos - lpos | None => default_count end in
  let? r :=
    if newline && bool_decide (count = 1) then Ok (mess ++ escaped, lpos)
    else
      let lpos := if newline then S lpos else lpos in
      if decide (lpos <= List.length sv) then Ok (mess ++ take count (drop lpos sv), lpos) else Throw OutOfRange in
  let trunc := bool_decide (snd r + count < List.length sv) in
  Ok (fst r ++ (if trunc then dots else []), trunc).

(** What differs: characters, or one of the texts ends, L174 and L193 *)
Inductive difference := Characters (obtained prediction : ascii) | Missing (c : ascii) | Excess (c : ascii).

(** Where, L181-188 *)
Inductive location := OnLine (n : nat) | AtCharacter (n : nat).

Record report := Report {
  r_difference : difference;
  r_where : option location; (* for characters only *)
  r_full : bool;             (* "Full strings:" rather than "Surrounding substring(s):", L171 *)
  r_obtained : text;
  r_prediction : text;
}.

(** [build_preliminary_message], L122-173 *)
Definition build (d : difference) (w : option location) (obtained prediction : text) (pos : nat) : res (option report) :=
  let start := start_pos obtained prediction pos in
  let? ob := make obtained start in
  let? pr := make prediction start in
  let trunc := bool_decide (0 < start) || snd ob || snd pr in
  Ok (Some (Report d w (negb trunc) (fst ob) (fst pr))).

Definition count_nl (l : text) : nat := List.length (List.filter (fun c => bool_decide (c = nl)) l).

(** [test(equality_check_t, ...)], L169-217: a failure, if there is one *)
Definition compare_texts (obtained prediction : text) : res (option report) :=
  let dist := mismatch obtained prediction in
  match obtained !! dist, prediction !! dist with
  | Some a, Some b =>
      let num_lines := count_nl (take dist prediction) in
      let w := if decide (0 < num_lines) then OnLine (num_lines + 1) else AtCharacter dist in
      build (Characters a b) (Some w) obtained prediction dist
  | None, Some b => build (Missing b) None obtained prediction dist
  | Some a, None => build (Excess a) None obtained prediction dist
  | None, None => Ok None
  end.
