(** Model of [tidy_name] and its helpers in [Source/sequoia/TestFramework/Output.cpp]: the
    demangled name of a type, as the run time library of the compiler in use gives it, is brought
    into a form which does not depend on the compiler.

    Texts are those of [Text/Model.v]; the functions of [Substitutions.cpp] and [Patterns.cpp] are
    called with a bound on the number of their steps which depends on the length of the text
    alone; that it suffices is proved. *)
From Coq Require Import Ascii String.
From stdpp Require Import list.
From Verif.Base Require Import Outcome.
From Verif.Text Require Import Model.
Local Open Scope res_scope.
Local Notation "⌜ s ⌝" := (list_ascii_of_string s%string).
Local Notation length := List.length.

(** [std::string::operator[]]: the element behind the last one is the null character; anything
    beyond is undefined behaviour. *)
Definition char_at (l : text) (i : nat) : res char :=
  if decide (i < length l) then rget l i else if decide (i = length l) then Ok zero else UB.

(** [std::string::erase(pos, n)] *)
Definition erase (l : text) (pos n : nat) : text := splice l pos n [].

(** [std::isdigit]; see [cctype] of [Text/Model.v] *)
Definition digit_code (c : char) : bool := (48 <=? code c) && (code c <=? 57).
Definition isdigit (sc : bool) : char -> res bool := cctype sc digit_code.

(** [std::string::rfind('(', pos)]: the last occurrence which starts at [pos] or before *)
Fixpoint rfind_char (l : text) (c : char) (pos : nat) : option nat :=
  if decide (l !! pos = Some c) then Some pos
  else match pos with 0 => None | S pos' => rfind_char l c pos' end.

(** The substitutions of [Substitutions.cpp] with a bound on their steps *)
Definition subst_all (l from to : text) : res text := replace_all (S (length l)) l from to.
Definition subst_recursive (l from to : text) : res text := replace_all_recursive (S (length l)) l from to.
Definition subst_between (l lft from rgt to : text) : res text :=
  replace_delimited (2 + length l) l lft from rgt to.

(** The conversions between numbers and texts of the standard library are not modelled; they are
    parameters. *)
Record conversions := Conversions {
  (** [ss >> std::hex >> hexNum]: the number read, if any *)
  read_hex : text -> option Z;
  (** [std::format("{:f}", ...)] of the [float] ([false]) or [double] ([true]) with these bits: a
      first character and the others, as the result is not empty *)
  show_bits : bool -> Z -> char * text;
  (** [std::strtold]: how many characters have been read, and [std::format("{:f}", val)] of the value *)
  read_hex_float : text -> nat * (char * text)
}.

Definition uncons (ct : char * text) : text := ct.1 :: ct.2.

Section tidy.
  (** [sc]: is [char] signed?  [lp64]: have [long] and [long long] the same size? *)
  Context (sc lp64 : bool) (cv : conversions).

  (** Output.cpp L38-56.  Positions are not adjusted after the removal. *)
  Fixpoint remove_enum_spec_loop (fuel : nat) (name : text) (pos : nat) : res text :=
    match fuel with
    | 0 => NoFuel
    | S fuel' =>
        match find_matched_delimiters name "(" ")" pos with
        | None => Ok name
        | Some (op, cl) =>
            if decide (op <> cl /\ cl < length name) then
              let? c := char_at name cl in
              let? d := isdigit sc c in
              if d : bool then remove_enum_spec_loop fuel' (erase name op (cl - op)) cl else Ok name
            else Ok name
        end
    end.

  Definition remove_enum_spec (name : text) : res text := remove_enum_spec_loop (S (length name)) name 0.

  (** Output.cpp L58-65: the text and the position behind the number put in *)
  Definition hex_to_floating_point (double : bool) (name : text) (start fin : nat) (val : Z) : text * nat :=
    let str := uncons (show_bits cv double val) in
    (splice (erase name start (fin - start)) start 0 str, start + length str).

  (** Output.cpp L78: on to the next digit, but not beyond the last character *)
  Fixpoint to_digit (fuel : nat) (name : text) (pos : nat) : res nat :=
    match fuel with
    | 0 => NoFuel
    | S fuel' =>
        if decide (pos < length name - 1) then
          let? c := char_at name pos in
          let? d := isdigit sc c in
          if d : bool then Ok pos else to_digit fuel' name (S pos)
        else Ok pos
    end.

  (** Output.cpp L87-116: a floating-point number given by its bits *)
  Definition bits (name : text) (pos : nat) : res (text * nat) :=
    match find_from name [("]")%char] pos with
    | None => Ok (name, pos)
    | Some close =>
        match read_hex cv (take (close - pos) (drop pos name)) with
        | None => Ok (name, pos)
        | Some hexNum =>
            let closeParen := pos - 2 in
            match rfind_char name "(" (pos - 1) with
            | None => Ok (name, pos)
            | Some openParen =>
                let? c := char_at name closeParen in
                if decide (c = ")"%char) then
                  let type := take (closeParen - openParen - 1) (drop (openParen + 1) name) in
                  if decide (type = ⌜"float"⌝) then Ok (hex_to_floating_point false name openParen (close + 1) hexNum)
                  else if decide (type = ⌜"double"⌝) then Ok (hex_to_floating_point true name openParen (close + 1) hexNum)
                  else Ok (name, close)
                else Ok (name, pos)
            end
        end
    end.

  (** Output.cpp L118-129: a number in hexadecimal notation *)
  Definition hexadecimal (name : text) (pos : nat) : res (text * nat) :=
    let? c := char_at name (pos + 1) in
    if decide (c = "x"%char) then
      let (dist, str) := read_hex_float cv (drop pos name) in
      if decide (0 < dist) then Ok (splice name pos dist (uncons str), pos + (length (uncons str) - 1))
      else Ok (name, pos)
    else Ok (name, pos).

  (** Output.cpp L131: the position is moved on before the test *)
  Fixpoint past_digits (fuel : nat) (name : text) (pos : nat) : res nat :=
    match fuel with
    | 0 => NoFuel
    | S fuel' =>
        if decide (pos < length name - 1) then
          let? c := char_at name (S pos) in
          let? d := isdigit sc c in
          if d : bool then past_digits fuel' name (S pos) else Ok (S pos)
        else Ok pos
    end.

  (** Output.cpp L133-140: what follows the digits is removed up to the next comma or bracket *)
  Definition drop_suffix (name : text) (opened pos : nat) : res (text * nat) :=
    if decide (pos < length name /\ opened < pos - 1) then
      let? c := char_at name pos in
      let? a := isalpha sc c in
      if a : bool then
        match find_first_of name ⌜",>"⌝ pos with
        | Some close => Ok (erase name pos (close - pos), S pos)
        | None => Ok (name, pos)
        end
      else Ok (name, pos)
    else Ok (name, pos).

  (** Output.cpp L67-145.  [std::string::npos] for the next position ends the loop. *)
  Fixpoint literals_loop (fuel : nat) (name : text) (pos : nat) : res text :=
    match fuel with
    | 0 => NoFuel
    | S fuel' =>
        if decide (pos < length name) then
          match find_first_of name ⌜"< "⌝ pos with
          | None => Ok name
          | Some opened =>
              let? p := to_digit (S (length name)) name (S opened) in
              if decide (p < length name - 1) then
                let? prev := char_at name (p - 1) in
                let? ident := (if decide (prev = underscore) then Ok true else isalpha sc prev) in
                if ident : bool then
                  match find_first_of name ⌜",>"⌝ p with
                  | Some p' => literals_loop fuel' name p'
                  | None => Ok name
                  end
                else
                  let? (name1, p1) := (if decide (prev = "["%char) then bits name p else Ok (name, p)) in
                  let? (name2, p2) := hexadecimal name1 p1 in
                  let? p3 := past_digits (S (length name2)) name2 p2 in
                  let? (name4, p4) := drop_suffix name2 opened p3 in
                  literals_loop fuel' name4 p4
              else literals_loop fuel' name p
          end
        else Ok name
    end.

  Definition process_literals (name : text) : res text := literals_loop (S (length name)) name 0.

  (** [std::from_chars] on a whole text, for an unsigned number of 64 bits: [None] if it is no number
      or does not fit.  Output.cpp L158-160 asks for the largest number only. *)
  Definition digit_value (c : char) : N := N.of_nat (code c - 48).
  Definition number (l : text) : option N :=
    match l with
    | [] => None
    | _ => if forallb digit_code l then
             let n := foldl (fun n c => (10 * n + digit_value c)%N) 0%N l in
             if decide (n < 2 ^ 64)%N then Some n else None
           else None
    end.

  (** Output.cpp L147-171.  Only the first span is looked at.  Without a closing bracket the pointer
      behind the end of the text is computed: undefined behaviour. *)
  Definition process_spans (name : text) : res text :=
    match find_sandwiched_text name ⌜"::span<"⌝ ⌜">"⌝ 0 with
    | None => Ok name
    | Some (start, fin) =>
        match fin with
        | Some fin =>
            if decide (start = fin) then Ok name
            else match find_from name [","%char] start with
                 | None => Ok name
                 | Some comma =>
                     if decide (comma < fin - 1) then
                       let? c := char_at name (S comma) in
                       let first := if decide (c = " "%char) then 2 + comma else S comma in
                       if decide (number (take (fin - first) (drop first name)) = Some (2 ^ 64 - 1)%N)
                       then Ok (splice name first (fin - first) ⌜"-1"⌝)
                       else Ok name
                     else Ok name
                 end
        | None =>
            match find_from name [","%char] start with
            | None => Ok name
            | Some _ => UB
            end
        end
    end.

  (** Output.cpp L214-232.  The count of open brackets is not checked against the end of the text.  As the
      scan starts at an opening bracket and stops when the count is zero, the count is never negative. *)
  Fixpoint parens_loop (fuel : nat) (name : text) (openPos pos opened : nat) : res text :=
    match fuel with
    | 0 => NoFuel
    | S fuel' =>
        let? c := char_at name pos in
        let opened' := if decide (c = "("%char) then S opened
                       else if decide (c = ")"%char) then pred opened else opened in
        if decide (opened' = 0) then
          let? name' := (if decide (S pos < length name) then
                           let? c' := char_at name (S pos) in
                           let? d := isdigit sc c' in
                           Ok (if d : bool then erase name openPos (S pos - openPos) else name)
                         else Ok name) in
          match find_from name' ["("%char] (S pos) with
          | None => Ok name'
          | Some p => parens_loop fuel' name' p p 0
          end
        else parens_loop fuel' name openPos (S pos) opened'
    end.

  Definition remove_casts (name : text) : res text :=
    match find_from name ["("%char] 0 with
    | None => Ok name
    | Some p => parens_loop (2 + length name) name p p 0
    end.

  (** Output.cpp L194-235 *)
  Definition tidy_name_common (name : text) : res text :=
    let? name := (if lp64 then
                    let? name := subst_all name ⌜"long long"⌝ ⌜"long"⌝ in
                    subst_all name ⌜"long"⌝ ⌜"long long"⌝
                  else Ok name) in
    let? name := subst_between name ⌜" <"⌝ ⌜"true"⌝ ⌜",>"⌝ ⌜"1"⌝ in
    let? name := subst_between name ⌜" <"⌝ ⌜"false"⌝ ⌜",>"⌝ ⌜"0"⌝ in
    let? name := remove_enum_spec name in
    remove_casts name.

  (** Output.cpp L376-386 *)
  Definition tidy_name_clang (name : text) : res text :=
    let? name := subst_all name ⌜"::__1::"⌝ ⌜"::"⌝ in
    let? name := subst_all name ⌜"::__fs::"⌝ ⌜"::"⌝ in
    let? name := subst_recursive name ⌜">>"⌝ ⌜"> >"⌝ in
    let? name := process_literals name in
    let? name := process_spans name in
    tidy_name_common name.

  (** Output.cpp L388-398 *)
  Definition tidy_name_gcc (name : text) : res text :=
    let? name := subst_all name ⌜"__cxx11::"⌝ [] in
    let? name := subst_all name ⌜"_V2::"⌝ [] in
    let? name := subst_recursive name ⌜">>"⌝ ⌜"> >"⌝ in
    let? name := process_literals name in
    let? name := process_spans name in
    tidy_name_common name.
End tidy.

(** Output.cpp L173-192.  Without the closing text the number of characters to be replaced is computed
    from [npos] and wraps around: from position 31 on it exceeds the length of any text, before that it is
    30 less the position; the loop ends thereafter. *)
Definition array_opening : text := ⌜"std::_Array_const_iterator<"⌝.
Definition array_closing : text := ⌜", 1>"⌝.
Definition array_qualifiers : text := ⌜" const*"⌝.

Fixpoint array_iterators_loop (fuel : nat) (name : text) (pos : nat) : res text :=
  match fuel with
  | 0 => NoFuel
  | S fuel' =>
      match find_sandwiched_text name array_opening array_closing pos with
      | None => Ok name
      | Some (start, Some fin) =>
          if decide (start = fin) then Ok name
          else
            let len := fin - start in
            let at_ := start - length array_opening in
            let name' := splice name at_ (length array_opening + len + length array_closing)
                           (take len (drop start name) ++ array_qualifiers) in
            let pos' := at_ + len + length array_qualifiers in
            if decide (name' !! pos' = Some " "%char) then array_iterators_loop fuel' (erase name' pos' 1) pos'
            else array_iterators_loop fuel' name' pos'
      | Some (start, None) =>
          let at_ := start - length array_opening in
          let n := if decide (start <= 30) then 30 - start else length name - at_ in
          Ok (splice name at_ n (drop start name ++ array_qualifiers))
      end
  end.

Definition process_array_iterators (name : text) : res text :=
  array_iterators_loop (S (length name)) name 0.

(** Output.cpp L403-413 *)
Definition peel (prefix name : text) : text :=
  if starts_with prefix name then drop (length prefix) name else name.

(** Output.cpp L400-446.  [int64]: what is substituted for [__int64], depending on its size; nothing if
    the code has not been compiled with MSVC. *)
Definition tidy_name_msvc (int64 : option text) (name : text) : res text :=
  let name := peel ⌜"enum "⌝ (peel ⌜"class "⌝ (peel ⌜"struct "⌝ name)) in
  let? name := subst_between name ⌜"<,"⌝ ⌜"struct "⌝ [] [] in
  let? name := subst_between name ⌜"<,"⌝ ⌜"class "⌝ [] [] in
  let? name := subst_between name ⌜"<,"⌝ ⌜"enum "⌝ [] [] in
  let? name := subst_all name ⌜","⌝ ⌜", "⌝ in
  let? name := subst_all name ⌜" ,"⌝ ⌜","⌝ in
  let? name := subst_all name ⌜" & __ptr64"⌝ ⌜"&"⌝ in
  let? name := subst_all name ⌜" * __ptr64"⌝ ⌜"*"⌝ in
  let? name := subst_all name ⌜"`anonymous namespace'"⌝ ⌜"(anonymous namespace)"⌝ in
  let? name := match int64 with Some t => subst_all name ⌜"__int64"⌝ t | None => Ok name end in
  let? name := subst_all name ⌜"__cdecl(void)"⌝ ⌜"()"⌝ in
  let? name := subst_all name ⌜"__cdecl"⌝ [] in
  process_array_iterators name.
