(** Model of [Source/sequoia/TextProcessing/{Substitutions,Indent,Patterns}.*] and of the text
    helpers [end_block], [emphasise] of [Source/sequoia/TestFramework/Output.cpp].

    A [std::string] is a list of 8-bit characters.  Allocation failure and the maximal length of a
    string are not modelled.  Positions are natural numbers; [npos] is [None]. *)
From Coq Require Import Ascii.
From stdpp Require Import list.
From Verif.Base Require Import Outcome.
Local Open Scope res_scope.

Global Instance char_eq_dec : EqDecision ascii := ascii_dec.

Notation char := ascii (only parsing).
Notation text := (list ascii).

Definition nl : char := "010"%char.
Definition tab : char := "009"%char.
Definition underscore : char := "_"%char.

(** ** The standard library functions used *)

(** Does [l] begin with [from]? *)
Fixpoint starts_with (from l : text) : bool :=
  match from, l with
  | [], _ => true
  | _, [] => false
  | x :: from', y :: l' => if decide (x = y) then starts_with from' l' else false
  end.

(** [l.find(from)] *)
Fixpoint find_first (from l : text) : option nat :=
  if starts_with from l then Some 0
  else match l with
       | [] => None
       | _ :: l' => S <$> find_first from l'
       end.

(** [std::string::find(from, pos)]: the first occurrence at or after [pos]; [npos] if [pos] is beyond
    the end. *)
Definition find_from (l from : text) (pos : nat) : option nat :=
  if decide (pos <= length l) then Nat.add pos <$> find_first from (drop pos l) else None.

(** [std::string::find_first_of(cs, pos)] *)
Fixpoint find_any (cs l : text) : option nat :=
  match l with
  | [] => None
  | x :: l' => if decide (x ∈ cs) then Some 0 else S <$> find_any cs l'
  end.

Definition find_first_of (l cs : text) (pos : nat) : option nat :=
  if decide (pos <= length l) then Nat.add pos <$> find_any cs (drop pos l) else None.

(** [std::string::replace(pos, n, to)], for [pos <= size()] *)
Definition splice (l : text) (pos n : nat) (to : text) : text := take pos l ++ to ++ drop (pos + n) l.

(** The [<cctype>] functions in the "C" locale.  Their argument must be representable as [unsigned
    char] or be [EOF]: where [char] is signed ([sc]) passing a negative [char] other than -1 is
    undefined behaviour. *)
Definition code (c : char) : nat := nat_of_ascii c.
Definition upper_code (c : char) : bool := (65 <=? code c) && (code c <=? 90).
Definition lower_code (c : char) : bool := (97 <=? code c) && (code c <=? 122).
Definition cctype (sc : bool) (p : char -> bool) (c : char) : res bool :=
  if sc && (128 <=? code c) && (code c <? 255) then UB else Ok (p c).
Definition isalpha (sc : bool) : char -> res bool := cctype sc (fun c => upper_code c || lower_code c).
Definition isupper (sc : bool) : char -> res bool := cctype sc upper_code.

(** [std::toupper], [std::tolower] applied to an [unsigned char] *)
Definition to_upper (c : char) : char := if lower_code c then ascii_of_nat (code c - 32) else c.
Definition to_lower (c : char) : char := if upper_code c then ascii_of_nat (code c + 32) else c.

(** ** Substitutions *)

(** Substitutions.cpp L104-111 *)
Definition replace (l from to : text) : text :=
  match find_from l from 0 with
  | Some pos => splice l pos (length from) to
  | None => l
  end.

(** Substitutions.cpp L120-130, the loop *)
Fixpoint replace_all_loop (fuel : nat) (l from to : text) (pos : nat) : res text :=
  match fuel with
  | 0 => NoFuel
  | S fuel' =>
      match find_from l from pos with
      | None => Ok l
      | Some p => replace_all_loop fuel' (splice l p (length from) to) from to (p + length to)
      end
  end.

Definition replace_all (fuel : nat) (l from to : text) : res text := replace_all_loop fuel l from to 0.

(** Substitutions.hpp L98-105, [replace_all(text, replacements...)] *)
Fixpoint replace_all_list (fuel : nat) (l : text) (rs : list (text * text)) : res text :=
  match rs with
  | [] => Ok l
  | (from, to) :: rs' => let? l' := replace_all fuel l from to in replace_all_list fuel l' rs'
  end.

(** Substitutions.cpp L139-149 *)
Fixpoint replace_all_recursive_loop (fuel : nat) (l from to : text) (pos : nat) : res text :=
  match fuel with
  | 0 => NoFuel
  | S fuel' =>
      match find_from l from pos with
      | None => Ok l
      | Some p => replace_all_recursive_loop fuel' (splice l p (length from) to) from to (S p)
      end
  end.

Definition replace_all_recursive (fuel : nat) (l from to : text) : res text :=
  replace_all_recursive_loop fuel l from to 0.

(** Substitutions.hpp L123-145; the predicates are total functions of the character *)
Definition neighbours_ok (lp rp : char -> bool) (l from : text) (pos : nat) : res bool :=
  let? lft := match pos with
               | 0 => Ok (lp zero)
               | S pos' => let? c := rget l pos' in Ok (lp c)
               end in
  if lft : bool then
    if decide (pos + length from < length l) then
      let? c := rget l (pos + length from) in Ok (rp c)
    else if decide (pos + length from = length l) then Ok (rp zero) else Ok false
  else Ok false.

Fixpoint replace_if_loop (fuel : nat) (lp rp : char -> bool) (l from to : text) (pos : nat) : res text :=
  match fuel with
  | 0 => NoFuel
  | S fuel' =>
      match find_from l from pos with
      | None => Ok l
      | Some p =>
          let? b := neighbours_ok lp rp l from p in
          if b : bool then replace_if_loop fuel' lp rp (splice l p (length from) to) from to (p + (length to + 1))
          else replace_if_loop fuel' lp rp l from to (p + (length from + 1))
      end
  end.

Definition replace_if (fuel : nat) (lp rp : char -> bool) (l from to : text) : res text :=
  replace_if_loop fuel lp rp l from to 0.

(** Substitutions.cpp L158-167 *)
Definition any_of (cs : text) (c : char) : bool :=
  match cs with [] => true | _ => bool_decide (c ∈ cs) end.

Definition replace_delimited (fuel : nat) (l lft from rgt to : text) : res text :=
  replace_if fuel (any_of lft) (any_of rgt) l from to.

(** Substitutions.cpp L16-47 *)
Definition upper_at (sc : bool) (l : text) (i : nat) : res text :=
  match l !! i with
  | Some c =>
      let? a := isalpha sc c in
      Ok (if a : bool then <[i := to_upper c]> l else l)
  | None => Ok l
  end.

Fixpoint camel_loop (fuel : nat) (sc : bool) (l sep : text) (pos : nat) : res text :=
  match fuel with
  | 0 => NoFuel
  | S fuel' =>
      match find_from l [underscore] pos with
      | None => Ok l
      | Some p =>
          let? l' := upper_at sc (splice l p 1 sep) (p + length sep) in
          camel_loop fuel' sc l' sep (p + (length sep + 1))
      end
  end.

Definition to_camel_case (fuel : nat) (sc : bool) (l sep : text) : res text :=
  match l with
  | [] => Ok []
  | _ => let? l' := upper_at sc l 0 in camel_loop fuel sc l' sep 0
  end.

(** Substitutions.hpp L29-50; the iterator is an index *)
Fixpoint words_loop (fuel : nat) (sc : bool) (l sep : text) (on_upper : char -> char) (i : nat) : res text :=
  match fuel with
  | 0 => NoFuel
  | S fuel' =>
      match l !! i with
      | None => Ok l
      | Some c =>
          let? u := isupper sc c in
          if u : bool then
            let l' := <[i := on_upper c]> l in
            if decide (0 < i) then
              words_loop fuel' sc (splice l' i 0 sep) sep on_upper (i + length sep + 1)
            else words_loop fuel' sc l' sep on_upper (i + 1)
          else words_loop fuel' sc l sep on_upper (i + 1)
      end
  end.

Definition camel_to_words (fuel : nat) (sc : bool) (l sep : text) (on_upper : char -> char) : res text :=
  words_loop fuel sc l sep on_upper 0.

(** Substitutions.cpp L56-59 *)
Definition to_snake_case (fuel : nat) (sc : bool) (l : text) : res text :=
  camel_to_words fuel sc l [underscore] to_lower.

(** Substitutions.cpp L68-77, L86-95 *)
Definition capitalize (l : text) : text := match l with [] => [] | c :: l' => to_upper c :: l' end.
Definition uncapitalize (l : text) : text := match l with [] => [] | c :: l' => to_lower c :: l' end.

(** ** Indentation *)

(** Indent.cpp L16-42.  [sv.substr(current)] needs [current <= size], which the loop condition gives;
    a line is copied up to and including the next line break. *)
Fixpoint indent_loop (fuel : nat) (sv ind str : text) (current : nat) : res text :=
  match fuel with
  | 0 => NoFuel
  | S fuel' =>
      if decide (current < length sv) then
        let rest := drop current sv in
        match find_first [nl] rest with
        | Some dist =>
            let line := take (dist + 1) rest in
            let str' := str ++ (if bool_decide (Forall (fun c => c = nl) line) then [] else ind) ++ line in
            indent_loop fuel' sv ind str' (current + (dist + 1))
        | None =>
            (* current becomes npos, so the loop ends *)
            Ok (str ++ (if bool_decide (Forall (fun c => c = nl) rest) then [] else ind) ++ rest)
        end
      else Ok str
  end.

Definition indent (fuel : nat) (sv ind : text) : res text :=
  match sv with
  | [] => Ok []
  | _ => match ind with
         | [] => Ok sv
         | _ => indent_loop fuel sv ind [] 0
         end
  end.

(** Indent.cpp L44-59 *)
Definition append_indented (fuel : nat) (s1 s2 ind : text) : res text :=
  match s2 with
  | [] => Ok s1
  | _ => match s1 with
         | [] => Ok s2
         | _ => let? t := indent fuel s2 ind in Ok (s1 ++ [nl] ++ t)
         end
  end.

(** Indent.hpp L92-105, L116-121: the variadic form *)
Fixpoint append_all_indented (fuel : nat) (s : text) (ss : list text) (ind : text) : res text :=
  match ss with
  | [] => Ok s
  | x :: ss' => let? s' := append_indented fuel s x ind in append_all_indented fuel s' ss' ind
  end.

(** Indent.hpp L107-113, L132-138 *)
Definition indent_all (fuel : nat) (sv : text) (ss : list text) (ind : text) : res text :=
  let? s := indent fuel sv ind in append_all_indented fuel s ss ind.

(** Indent.hpp L140-145 *)
Definition append_lines (fuel : nat) (s : text) (ss : list text) : res text :=
  append_all_indented fuel s ss [].

(** Indent.cpp L68-82 *)
Fixpoint tabs_loop (fuel : nat) (l spacing : text) (pos : nat) : res text :=
  match fuel with
  | 0 => NoFuel
  | S fuel' =>
      match find_from l [tab] pos with
      | None => Ok l
      | Some p => tabs_loop fuel' (splice l p 1 spacing) spacing (p + length spacing)
      end
  end.

Definition tabs_to_spacing (fuel : nat) (l spacing : text) : res text :=
  if decide (spacing = [tab]) then Ok l else tabs_loop fuel l spacing 0.

(** Indent.hpp L50-55, [indentation::trim] *)
Definition trim (ind : text) (count : nat) : text := take (length ind - Nat.min count (length ind)) ind.

(** Output.cpp L255-272.  The first loop counts the line breaks at the end. *)
Fixpoint count_breaks (todo : nat) (s : text) (n : nat) : nat :=
  match todo with
  | 0 => n
  | S todo' =>
      match s !! (length s - 1 - n) with
      | Some c => if decide (c = nl) then count_breaks todo' s (S n) else n
      | None => n
      end
  end.

Definition end_block (s : text) (newlines : nat) (footer : text) : text :=
  match s with
  | [] => []
  | _ => let n := count_breaks (Nat.min (length s) newlines) s 0 in
         s ++ repeat nl (newlines - n) ++ footer
  end.

(** ** Patterns *)

(** Patterns.cpp L17-41.  [None]: {npos, npos}.  The counter is a 64-bit integer, which a string in
    memory cannot overflow; it starts at 1 and the loop stops when it reaches 0, so a natural number
    does. *)
Fixpoint match_loop (l : text) (o c : char) (count pos : nat) : option nat :=
  match l with
  | [] => None
  | x :: l' =>
      let count' := if decide (x = o) then S count else if decide (x = c) then pred count else count in
      match count' with
      | 0 => Some (S pos)
      | S _ => match_loop l' o c count' (S pos)
      end
  end.

Definition find_matched_delimiters (l : text) (o c : char) (pos : nat) : option (nat * nat) :=
  match find_from l [o] pos with
  | None => None
  | Some p => match match_loop (drop (S p) l) o c 1 (S p) with
              | Some e => Some (p, e)
              | None => Some (p, p)
              end
  end.

(** Patterns.cpp L43-53.  [None] in the second component: npos *)
Definition find_sandwiched_text (l lft rgt : text) (pos : nat) : option (nat * option nat) :=
  match find_from l lft pos with
  | None => None
  | Some start => let offset := start + length lft in Some (offset, find_from l rgt offset)
  end.
