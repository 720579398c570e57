(** Vocabulary for the properties of newly made tests. *)
From Coq Require Import Ascii String.
From stdpp Require Import list.
From Verif.Base Require Outcome.
From Verif.Failure Require Model.
From Verif.Text Require Import Model Spec.
From Verif.Creator Require Import Model Templates.
Local Notation "⌜ s ⌝" := (list_ascii_of_string s%string).
Local Notation length := List.length.

(** ** Templates *)

(** All entries of a table are put in place of their keys at once: what has been put in is not looked at again.
    Where several keys fit, the first one in the table is taken. *)
Fixpoint fill (skip : nat) (table : list (text * text)) (l : text) : text :=
  match l with
  | [] => []
  | c :: l' =>
      match skip with
      | S k => fill k table l'
      | O =>
          match find (fun e => starts_with (fst e) l) table with
          | Some (key, value) => value ++ fill (length key - 1) table l'
          | None => c :: fill 0 table l'
          end
      end
  end.
Definition instantiate (table : list (text * text)) (l : text) : text := fill 0 table l.

(** The text is put in the middle of a field; the space on the left is the wider one. *)
Definition centred (width : nat) (l : text) : text :=
  let space := width - length l in
  replicate (space - space / 2) " "%char ++ l ++ replicate (space / 2) " "%char.
Definition headline (year copyright : text) : text := ⌜"Copyright "⌝ ++ copyright ++ ⌜" "⌝ ++ year ++ ⌜"."⌝.

(** A file with the copyright set, the rest being [rest]: it begins with a line of slashes. *)
Definition with_copyright (year copyright rest : text) : text :=
  replicate 68 "/"%char ++ [nl] ++ ⌜"//"⌝ ++ centred 64 (headline year copyright) ++ ⌜"//"⌝ ++ rest.
(** What follows the line about the copyright. *)
Definition body (template : text) : text := drop 137 template.

(** Kinds of tests and what they are called. *)
Inductive kind := Regular | MoveOnly | RegularAllocation | MoveOnlyAllocation | Free | Perf.
Definition kind_name (k : kind) : text :=
  match k with
  | Regular => ⌜"regular"⌝ | MoveOnly => ⌜"move_only"⌝
  | RegularAllocation => ⌜"regular_allocation"⌝ | MoveOnlyAllocation => ⌜"move_only_allocation"⌝
  | Free => ⌜"free"⌝ | Perf => ⌜"performance"⌝
  end.
Definition kind_camel (k : kind) : text :=
  match k with
  | Regular => ⌜"Regular"⌝ | MoveOnly => ⌜"MoveOnly"⌝
  | RegularAllocation => ⌜"RegularAllocation"⌝ | MoveOnlyAllocation => ⌜"MoveOnlyAllocation"⌝
  | Free => ⌜"Free"⌝ | Perf => ⌜"Performance"⌝
  end.

Definition common_table (o : setting) : list (text * text) :=
  [(⌜"?::testing"⌝, project_namespace o ++ ⌜"::testing"⌝);
   (⌜"using namespace sequoia::testing;"⌝,
     if bool_decide (project_namespace o = ⌜"sequoia"⌝) then [] else ⌜"using namespace sequoia::testing;"⌝ ++ [nl; nl] ++ code_indent o);
   (⌜"?forename"⌝, forename o); (⌜"?surname"⌝, surname o); ([tab], code_indent o)].
Definition behavioural_table (k : kind) (o : setting) : list (text * text) :=
  common_table o ++
  [(⌜"?Behavioural"⌝, camel o); (⌜"?Test"⌝, kind_camel k ++ ⌜"Test"⌝); (⌜"?Header.hpp"⌝, header_path o); (⌜"?"⌝, kind_name k)].
Definition allocation_table (k : kind) (o : setting) : list (text * text) :=
  common_table o ++
  [(⌜"?Class"⌝, camel o); (⌜"?Allocation"⌝, kind_camel k); (⌜"?_allocation"⌝, kind_name k)]
  ++ match k with MoveOnlyAllocation => [(⌜"bool PropagateCopy, "⌝, [])] | _ => [] end.
(** [parameters] is the list of template parameters with its brackets, or empty. *)
Definition semantics_table (k : kind) (o : setting) (parameters qualified_name args predictions : text) : list (text * text) :=
  [(⌜"?args"⌝, args); (⌜"?predictions"⌝, predictions)]
  ++ (if bool_decide (parameters = []) then [(⌜"<?>"⌝, ⌜"<>"⌝)] else [(⌜"<?> "⌝, parameters ++ [nl] ++ code_indent o)])
  ++ common_table o
  ++ [(⌜"::?_class"⌝, qualified_name); (⌜"?Class.hpp"⌝, header_path o); (⌜"?Class"⌝, camel o);
      (⌜"?Test"⌝, kind_camel k ++ ⌜"Test"⌝); (⌜"?"⌝, kind_name k)].

(** The part for regular types or the other one. *)
Definition chosen (k : kind) (l out : text) : Prop :=
  ("$"%char ∉ l /\ out = l) \/
  exists a b c d, l = a ++ ⌜"$Regular"⌝ ++ b ++ ⌜"$Move"⌝ ++ c ++ ⌜"$"⌝ ++ [nl] ++ d
    /\ "$"%char ∉ a ++ b ++ c ++ d /\ out = a ++ (match k with Regular => b | _ => c end) ++ d.
(** The specialization of [value_tester] is left out if the class is equivalent to nothing else. *)
Definition tested (equivalent : bool) (l out : text) : Prop :=
  ((equivalent = true \/ ~ occurs ⌜"template<?>"⌝ l) /\ out = l) \/
  (equivalent = false /\ exists a b d, l = a ++ ⌜"template<?>"⌝ ++ b ++ ⌜"};"⌝ ++ d
    /\ ~ occurs ⌜"template<?>"⌝ (a ++ b ++ d) /\ ~ occurs ⌜"};"⌝ d /\ out = a ++ d).

(** Headers and sources: with no namespace the lines about it are left out and the rest has one tab less at the
    beginning of each line. *)
Definition one_tab_less (w : text) : text := match w with c :: w' => if decide (c = tab) then w' else w | [] => [] end.
Definition namespace_table (ns : text) : list (text * text) :=
  match ns with
  | [] => [(⌜"namespace"⌝ ++ [nl], []); (⌜"?{"⌝ ++ [nl], []); (⌜"?}"⌝ ++ [nl], [])]
  | _ => [(⌜"namespace"⌝, ⌜"namespace "⌝ ++ ns); (⌜"?{"⌝, ⌜"{"⌝); (⌜"?}"⌝, ⌜"}"⌝)]
  end.
Definition unnested (ns l : text) : text :=
  match ns, lines l with
  | [], w :: ws => join [nl] (w :: map one_tab_less ws)
  | _, _ => l
  end.
Definition class_table (o : setting) (parameters : text) : list (text * text) :=
  (⌜"?type"⌝, forename o) ::
  (if bool_decide (parameters = []) then [([tab] ++ ⌜"template<?>"⌝ ++ [nl], []); (⌜"template<?>"⌝ ++ [nl], [])]
   else [(⌜"template<?>"⌝, ⌜"template"⌝ ++ parameters)])
  ++ [([tab], code_indent o)].
Definition source_table (path indent : text) : list (text * text) := [(⌜"?.hpp"⌝, path); ([tab], indent)].

(** ** Names *)

Definition lacks (bad l : text) : Prop := Forall (fun c => c ∉ bad) l.
(** Letters, digits and underscores. *)
Definition ident_char (c : char) : bool :=
  let n := nat_of_ascii c in
  ((48 <=? n) && (n <=? 57)) || ((65 <=? n) && (n <=? 90)) || ((97 <=? n) && (n <=? 122)) || (n =? 95).
Definition word (l : text) : Prop := Forall (fun c => ident_char c = true) l.
Definition digit (c : char) : bool := (48 <=? nat_of_ascii c) && (nat_of_ascii c <=? 57).
Definition year_text (l : text) : Prop := Forall (fun c => digit c = true) l.

(** Someone's name. *)
Definition holder (l : text) : Prop :=
  lacks (⌜"?$;<"⌝ ++ [tab; nl]) l /\ ~ occurs ⌜"namespace"⌝ l /\ ~ occurs ⌜"bool PropagateCopy,"⌝ l.
Definition indent_text (l : text) : Prop := l = [tab] \/ Forall (fun c => c = blank) l.
Definition ordinary (o : setting) : Prop :=
  word (forename o) /\ word (surname o) /\ word (camel o) /\ word (project_namespace o)
  /\ lacks (⌜"?"⌝ ++ [tab]) (header_path o) /\ indent_text (code_indent o).

(** A class defined by a header: the class itself; and by a source file: both functions. *)
Definition declares (cls l : text) : Prop := occurs (⌜"class "⌝ ++ cls ++ ⌜" final : public "⌝) l.
Definition implements (cls l : text) : Prop :=
  occurs (⌜" "⌝ ++ cls ++ ⌜"::source_file() const"⌝ ++ [nl]) l /\ occurs (⌜"void "⌝ ++ cls ++ ⌜"::run_tests()"⌝ ++ [nl]) l.

(** ** Template parameters *)

(** A word. *)
Definition token (l : text) : Prop := l <> [] /\ lacks ⌜" ,<>"⌝ l.
(** A parameter: what it is, and its name; dots may stand apart. *)
Definition proper (d : spec) : Prop :=
  token (symbol d) /\ last (symbol d) <> Some "."%char
  /\ ((token (species d) /\ head (species d) <> Some "."%char)
      \/ exists w dots, species d = w ++ [blank] ++ "."%char :: dots /\ token w /\ token ("."%char :: dots)).

(** Types passed by value. *)
Definition by_value_words : list text :=
  [⌜"int"⌝; ⌜"float"⌝; ⌜"double"⌝; ⌜"bool"⌝; ⌜"char"⌝; ⌜"short"⌝; ⌜"long"⌝; ⌜"signed"⌝].
Definition first_word (l w : text) : Prop :=
  exists n post, l = replicate n blank ++ w ++ post /\ blank ∉ w /\ w <> [] /\ (post = [] \/ head post = Some blank).

(** One parameter after the other; the first which is wrong decides. *)
Fixpoint specs_of (read : text -> Outcome.res spec) (segments : list text) : Outcome.res (list spec) :=
  match segments with
  | [] => Outcome.Ok []
  | s :: segments' => Outcome.rbind (read s) (fun d => Outcome.rbind (specs_of read segments') (fun ds => Outcome.Ok (d :: ds)))
  end.

(** Parameters as written, and the arguments which name them all. *)
Definition parameter_list (ds : list spec) : text :=
  ⌜"<"⌝ ++ join ⌜", "⌝ (map (fun d => species d ++ [blank] ++ symbol d) ds) ++ ⌜">"⌝.
Definition is_pack (d : spec) : bool := bool_decide (last (species d) = Some "."%char).
Definition argument_list (ds : list spec) : text :=
  ⌜"<"⌝ ++ join ⌜", "⌝ (map (fun d => symbol d ++ if is_pack d then ⌜"..."⌝ else []) ds) ++ ⌜">"⌝.

(** The namespace in front of a name, if there is one. *)
Definition prefix_of (ns : option text) : text := match ns with Some n => n ++ ⌜"::"⌝ | None => [] end.
Definition enclosing (ns : option text) : text := match ns with Some n => n | None => [] end.

(** A parameter of a tester for equivalence: the [i]th of [n]. *)
Definition by_value (t w : text) : Prop :=
  last t = Some "*"%char \/ last t = Some "&"%char \/ w ∈ by_value_words \/ t = ⌜"std::size_t"⌝ \/ t = ⌜"size_t"⌝.
Definition passed (n i : nat) (t out : text) : Prop :=
  exists w c r, first_word t w /\ out = c ++ t ++ r ++ ⌜" prediction"⌝ ++ (if decide (n = 1) then [] else ⌜"_"⌝ ++ Failure.Model.decimal (N.of_nat i))
    /\ ((exists t', t = ⌜"const "⌝ ++ t') /\ c = [] \/ (~ exists t', t = ⌜"const "⌝ ++ t') /\ c = ⌜"const "⌝)
    /\ (by_value t w /\ r = [] \/ ~ by_value t w /\ r = ⌜"&"⌝).

(** The title of a class in the suite: its words, with capitals. *)
Definition entitled (cls constructor : text) : Prop :=
  exists ws vs, ws <> [] /\ Forall (fun w => underscore ∉ w) ws /\ cls = join [underscore] ws /\ Forall2 capitalized ws vs
    /\ constructor = cls ++ ⌜"{"""⌝ ++ join [blank] vs ++ ⌜"""}"⌝.

(** A text in which the name of a project stands at some places, with a capital ([true]) or without. *)
Fixpoint named (f : bool -> text) (ps : list (text * bool)) (end_ : text) : text :=
  match ps with
  | [] => end_
  | (seg, b) :: ps' => seg ++ f b ++ named f ps' end_
  end.
Definition placeholder (b : bool) : text := if b then ⌜"MyProject"⌝ else ⌜"myProject"⌝.
(** What stands in front of, between and behind the names without a capital, the others being [big]. *)
Fixpoint between (big : text) (ps : list (text * bool)) (end_ : text) : text * list text :=
  match ps with
  | [] => (end_, [])
  | (seg, b) :: ps' => let (s, ss) := between big ps' end_ in if b then (seg ++ big ++ s, ss) else (seg, s :: ss)
  end.
