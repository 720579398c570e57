(** Model of [Source/sequoia/TestFramework/TestCreator.{hpp,cpp}] (names, template parameters and the texts of
    the files made), of [set_top_copyright] of [TestRunnerUtilities.cpp] and of [set_proj_name] of
    [ProjectCreator.cpp].

    Texts of files are considered, not the file system: paths which appear in the texts are given.  The year is
    a parameter, and so is the signedness of [char]. *)
From Coq Require Import Ascii String.
From stdpp Require Import list.
From Verif.Base Require Import Outcome.
From Verif.Text Require Import Model.
From Verif.Edit Require Model.
From Verif.Failure Require Model.
Local Open Scope res_scope.
Local Notation "⌜ s ⌝" := (list_ascii_of_string s%string).

(** The loops of [replace_all] and [tabs_to_spacing] end within the length of the text (C33, C35). *)
Definition subst (l from to : text) : res text := replace_all (S (List.length l)) l from to.
Fixpoint substs (l : text) (rs : list (text * text)) : res text :=
  match rs with
  | [] => Ok l
  | (from, to) :: rs' => let? l' := subst l from to in substs l' rs'
  end.
Definition untab (l spacing : text) : res text := tabs_to_spacing (S (List.length l)) l spacing.
Definition camel_case (sc : bool) (l sep : text) : res text := to_camel_case (S (List.length l)) sc l sep.

(** [l.rfind(from, pos)] *)
Definition rfind_by (from l : text) (pos : nat) : option nat :=
  Edit.Model.find_last from (take (pos + List.length from) l).

(** [find_first_not_of], [find_last_not_of] *)
Fixpoint first_not_of (cs l : text) : option nat :=
  match l with
  | [] => None
  | c :: l' => if decide (c ∈ cs) then S <$> first_not_of cs l' else Some 0
  end.
Fixpoint last_not_of (cs l : text) : option nat :=
  match l with
  | [] => None
  | c :: l' =>
      match last_not_of cs l' with
      | Some i => Some (S i)
      | None => if decide (c ∈ cs) then None else Some 0
      end
  end.

Definition blank : char := " "%char.

(** ** Passing by value or reference: TestCreator.cpp L101-134 *)

Definition fun_types : list text :=
  [⌜"int"⌝; ⌜"float"⌝; ⌜"double"⌝; ⌜"bool"⌝; ⌜"char"⌝; ⌜"short"⌝; ⌜"long"⌝; ⌜"signed"⌝; ⌜"unsigned"⌝].
Definition other_types : list text :=
  [⌜"std::size_t"⌝; ⌜"size_t"⌝; ⌜"uint8_t"⌝; ⌜"uint16_t"⌝; ⌜"uint32_t"⌝; ⌜"uint64_t"⌝; ⌜"int8_t"⌝; ⌜"int16_t"⌝;
   ⌜"int32_t"⌝; ⌜"int64_t"⌝].

(** The loop of L116-125: [Some] is what is returned. *)
Fixpoint among_fun_types (token : text) (ts : list text) : option bool :=
  match ts with
  | [] => None
  | t :: ts' =>
      match find_first t token with
      | Some _ =>
          if decide (List.length token = List.length t) then Some false
          else Some ((List.length t <? List.length token) && match token !! List.length t with Some c => negb (bool_decide (c = blank)) | None => false end)
      | None => among_fun_types token ts'
      end
  end.

Definition handle_as_ref (type : text) : res bool :=
  match first_not_of [blank] type with
  | None => Throw LogicError
  | Some start =>
      if bool_decide (last type = Some "*"%char) || bool_decide (last type = Some "&"%char) then Ok false
      else
        let token := match find_from type [blank] start with
                     | Some e => take (e - start) (drop start type)
                     | None => drop start type
                     end in
        match among_fun_types token fun_types with
        | Some b => Ok b
        | None => Ok (negb (bool_decide (type ∈ other_types)))
        end
  end.

(** ** Template parameters *)

Record spec := Spec { species : text; symbol : text }.

(** L136-149. *)
Definition spec_text (d : spec) : text := species d ++ [blank] ++ symbol d ++ ⌜", "⌝.
Definition data_text (ds : list spec) : text :=
  match ds with
  | [] => []
  | _ => let str := ["<"%char] ++ concat (map spec_text ds) in
         take (List.length str - 2) str ++ [">"%char]
  end.

(** L151-185. *)
Definition generate_spec (str : text) : res spec :=
  match last_not_of ⌜" ."⌝ str with
  | None => Ok (Spec [] [])
  | Some e =>
      match Edit.Model.find_last [blank] (take e str) with
      | None => Throw RuntimeError
      | Some b =>
          let size := e - b in
          match last_not_of [blank] (take (e + 1 - size) str) with
          | None => Throw RuntimeError
          | Some e' =>
              let pos := Edit.Model.find_last [blank] (take e' str) in
              let first :=
                match pos with
                | Some p => if bool_decide (str !! (p + 1) = Some "."%char) then Edit.Model.find_last [blank] (take p str) else pos
                | None => None
                end in
              let p := match first with None => 0 | Some q => q + 1 end in
              Ok (Spec (take (e' + 1 - p) (drop p str)) (take size (drop (b + 1) str)))
          end
      end
  end.

(** L187-220.  The last view begins behind the closing bracket if a comma follows it: its length wraps. *)
Fixpoint data_loop (fuel : nat) (str : text) (close start : nat) (acc : list spec) : res (list spec) :=
  match fuel with
  | O => NoFuel
  | S fuel' =>
      match find_from str [","%char] start with
      | Some next =>
          let? d := generate_spec (take (next - start) (drop start str)) in
          data_loop fuel' str close (next + 1) (acc ++ [d])
      | None =>
          if close <? start then UB
          else let? d := generate_spec (take (close - start) (drop start str)) in Ok (acc ++ [d])
      end
  end.
Definition generate_data (str : text) : res (list spec) :=
  match find_first ["<"%char] str with
  | None => Ok []
  | Some o =>
      match Edit.Model.find_last [">"%char] str with
      | None => Throw RuntimeError
      | Some c => if c <? o then Throw RuntimeError else data_loop (S (List.length str)) str c (o + 1) []
      end
  end.

(** ** Names *)

(** L451-500: the namespace, the forename, the template parameters and the new qualified name; [given] is the
    forename so far, which is kept if the name ends with a double colon. *)
Record names := Names { name_space : text; fore : text; parameters : list spec; qualified : text }.

Definition arguments_text (ds : list spec) : text :=
  let args := ["<"%char] ++ concat (map (fun d => symbol d
      ++ (if bool_decide (last (species d) = Some "."%char) then ⌜"..."⌝ else []) ++ ⌜", "⌝) ds) in
  take (List.length args - 2) args ++ [">"%char].

Definition split_name (given name : text) : res names :=
  let template_pos := find_first ["<"%char] name in
  let colon := match template_pos with
               | Some p => rfind_by ⌜"::"⌝ name p
               | None => Edit.Model.find_last ⌜"::"⌝ name
               end in
  let '(start, ns, f) :=
    match colon with
    | Some pos => if pos <? List.length name - 2 then (Some (pos + 2), take pos name, drop (pos + 2) name) else (None, [], given)
    | None => (Some 0, [], name)
    end in
  let? ds := generate_data f in
  match ds, find_first ["<"%char] f with
  | _ :: _, Some pos =>
      Ok (Names ns (take pos f) ds (match start with Some s => take (s + pos) name ++ arguments_text ds | None => name end))
  | _, _ => Ok (Names ns f ds name)
  end.

(** L61-73, [to_surname]. *)
Inductive flavour := Standard | Diagnostics.
Definition to_surname (f : flavour) : text := match f with Standard => ⌜"test"⌝ | Diagnostics => ⌜"diagnostics"⌝ end.

(** L536-541, L671-675, L738-767: what is added to the suite. *)
Definition semantics_constructors (forename surname : text) : list text :=
  [forename ++ ⌜"_false_negative_"⌝ ++ surname ++ ⌜"{""False Negative Test""}"⌝; forename ++ ⌜"_"⌝ ++ surname ++ ⌜"{""Unit Test""}"⌝].
Definition allocation_constructors (forename surname : text) : list text :=
  [forename ++ ⌜"_"⌝ ++ surname ++ ⌜"{""Allocation Test""}"⌝].
Definition behavioural_class (forename middle surname : text) : text :=
  forename ++ ⌜"_"⌝ ++ (if bool_decide (middle = []) then [] else middle ++ ⌜"_"⌝) ++ surname.
Definition behavioural_constructor (sc : bool) (forename middle surname : text) : res text :=
  let cls := behavioural_class forename middle surname in
  let? nm := camel_case sc cls [blank] in
  Ok (cls ++ ⌜"{"""⌝ ++ nm ++ ⌜"""}"⌝).
Definition behavioural_constructors (sc : bool) (fl : flavour) (forename surname : text) : res (list text) :=
  match fl with
  | Standard => let? x := behavioural_constructor sc forename [] surname in Ok [x]
  | Diagnostics =>
      let? x := behavioural_constructor sc forename ⌜"false_positive"⌝ surname in
      let? y := behavioural_constructor sc forename ⌜"false_negative"⌝ surname in Ok [x; y]
  end.

(** ** Texts of files *)

(** TestRunnerUtilities.cpp L24-58. *)
Definition set_top_copyright (year l copyright : text) : res text :=
  match find_first ⌜"Copyright"⌝ l with
  | None => Throw RuntimeError
  | Some pos =>
      match rfind_by ⌜"//"⌝ l pos, find_from l ⌜"//"⌝ pos with
      | Some lft, Some rgt =>
          let new := ⌜"Copyright "⌝ ++ copyright ++ ⌜" "⌝ ++ year ++ ⌜"."⌝ in
          let reserved := rgt - lft - 2 in
          let remaining := reserved - List.length new in
          let right_space := remaining / 2 in
          let left_space := remaining - right_space in
          Ok (splice l (lft + 2) reserved (replicate left_space blank ++ new ++ replicate right_space blank))
      | _, _ => Throw RuntimeError
      end
  end.

(** TestCreator.cpp L35-53.  The loop of L40-47 goes from line break to line break. *)
Fixpoint dedent (l : text) : text :=
  match l with
  | [] => []
  | c :: l' =>
      if decide (c = nl) then
        match l' with
        | t :: l'' => if decide (t = tab) then nl :: dedent l'' else nl :: dedent l'
        | [] => [nl]
        end
      else c :: dedent l'
  end.
Definition process_namespace (l ns : text) : res text :=
  match ns with
  | [] => let? l' := substs l [(⌜"namespace"⌝ ++ [nl], []); (⌜"?{"⌝ ++ [nl], []); (⌜"?}"⌝ ++ [nl], [])] in Ok (dedent l')
  | _ => substs l [(⌜"namespace"⌝, ⌜"namespace "⌝ ++ ns); (⌜"?{"⌝, ⌜"{"⌝); (⌜"?}"⌝, ⌜"}"⌝)]
  end.

(** What the texts depend on. *)
Record setting := Setting {
  forename : text; surname : text; test_type : text; camel : text; header_path : text;
  project_namespace : text; code_indent : text }.

(** L428-437, [make_common_replacements]. *)
Definition using_line : text := ⌜"using namespace sequoia::testing;"⌝.
Definition common (o : setting) (l : text) : res text :=
  let? l1 := substs l [(⌜"?::testing"⌝, project_namespace o ++ ⌜"::testing"⌝);
                       (using_line, if bool_decide (project_namespace o = ⌜"sequoia"⌝) then [] else using_line ++ [nl; nl; tab]);
                       (⌜"?forename"⌝, forename o); (⌜"?surname"⌝, surname o)] in
  untab l1 (code_indent o).

(** L769-777. *)
Definition behavioural_text (sc : bool) (o : setting) (l : text) : res text :=
  let? l1 := common o l in
  let? ct := camel_case sc (test_type o) [] in
  substs l1 [(⌜"?Behavioural"⌝, camel o); (⌜"?Test"⌝, ct ++ ⌜"Test"⌝); (⌜"?Header.hpp"⌝, header_path o); (⌜"?"⌝, test_type o)].

(** L677-691. *)
Definition allocation_text (sc : bool) (o : setting) (l : text) : res text :=
  let? l0 := untab l (code_indent o) in
  let? l1 := common o l0 in
  let? ct := camel_case sc (test_type o) [] in
  let? l2 := substs l1 [(⌜"?Class"⌝, camel o); (⌜"?Allocation"⌝, ct); (⌜"?_allocation"⌝, test_type o)] in
  if bool_decide (test_type o = ⌜"move_only_allocation"⌝) then subst l2 ⌜"bool PropagateCopy, "⌝ [] else Ok l2.

(** L568-597: the parameters with what the class is equivalent to. *)
Definition prediction (num i : nat) (sep : text) : text :=
  ⌜"prediction"⌝ ++ (if 1 <? num then ⌜"_"⌝ ++ Failure.Model.decimal (N.of_nat i) else [])
  ++ (if (i <? num - 1) && negb (bool_decide (sep = [])) then sep ++ ⌜" "⌝ else []).
Fixpoint equivalents_loop (num i : nat) (types : list text) : res text :=
  match types with
  | [] => Ok []
  | t :: types' =>
      let? here :=
        match t with
        | [] => Ok []
        | _ =>
            let? r := handle_as_ref t in
            Ok ((if bool_decide (take 6 t = ⌜"const "⌝) then [] else ⌜"const "⌝) ++ t ++ (if r : bool then ⌜"&"⌝ else []) ++ ⌜" "⌝
                ++ prediction num i ⌜","⌝)
        end in
      let? rest := equivalents_loop num (S i) types' in Ok (here ++ rest)
  end.
Definition equivalents (types : list text) : res text := equivalents_loop (List.length types) 0 types.

(** L545-564: the part for regular or for other types. *)
Definition choose_part (regular : bool) (l : text) : text :=
  match find_first ⌜"$Regular"⌝ l with
  | None => l
  | Some start =>
      match find_from l ⌜"$Move"⌝ (start + 8) with
      | None => l
      | Some middle =>
          match find_from l (⌜"$"⌝ ++ [nl]) (middle + 5) with
          | None => l
          | Some e =>
              if regular then
                let l1 := splice l middle (e + 2 - middle) [] in splice l1 start 8 []
              else
                let l1 := splice l e 2 [] in splice l1 start (middle + 5 - start) []
          end
      end
  end.

(** L566-610, and L543-628. *)
Definition equivalence_part (types : list text) (l : text) : res text :=
  match types with
  | [] =>
      match Edit.Model.find_last ⌜"template<?>"⌝ l, Edit.Model.find_last ⌜"};"⌝ l with
      | Some start, Some finish =>
          if start <=? finish + 2 then Ok (splice l start (finish + 2 - start) []) else Ok (take start l)
      | _, _ => Ok l
      end
  | _ => let? args := equivalents types in substs l [(⌜"?args"⌝, args); (⌜"?predictions"⌝, prediction (List.length types) 0 [])]
  end.
Definition semantics_text (sc : bool) (o : setting) (ds : list spec) (qualified_name : text) (types : list text) (l : text) : res text :=
  let l1 := choose_part (bool_decide (test_type o = ⌜"regular"⌝)) l in
  let? l2 := equivalence_part types l1 in
  let? l3 := match ds with
             | [] => subst l2 ⌜"<?>"⌝ ⌜"<>"⌝
             | _ => subst l2 ⌜"<?> "⌝ (data_text ds ++ [nl] ++ code_indent o)
             end in
  let? l4 := common o l3 in
  let? ct := camel_case sc (test_type o) [] in
  substs l4 [(⌜"::?_class"⌝, qualified_name); (⌜"?Class.hpp"⌝, header_path o); (⌜"?Class"⌝, camel o);
             (⌜"?Test"⌝, ct ++ ⌜"Test"⌝); (⌜"?"⌝, test_type o)].

(** L630-646: a header; L403-416: a source file, [path] being the header relative to the sources; L728-731: a
    header with functions. *)
Definition class_header_text (year copyright ns : text) (o : setting) (ds : list spec) (l : text) : res text :=
  let? l0 := set_top_copyright year l copyright in
  let? l1 := process_namespace l0 ns in
  let? l2 := subst l1 ⌜"?type"⌝ (forename o) in
  let? l3 := match ds with
             | [] => substs l2 [([tab] ++ ⌜"template<?>"⌝ ++ [nl], []); (⌜"template<?>"⌝ ++ [nl], [])]
             | _ => subst l2 ⌜"template<?>"⌝ (⌜"template"⌝ ++ data_text ds)
             end in
  untab l3 (code_indent o).
Definition source_text (year copyright ns path indent : text) (l : text) : res text :=
  let? l0 := set_top_copyright year l copyright in
  let? l1 := process_namespace l0 ns in
  let? l2 := subst l1 ⌜"?.hpp"⌝ path in
  untab l2 indent.
Definition functions_header_text (year copyright ns : text) (l : text) : res text :=
  let? l0 := set_top_copyright year l copyright in process_namespace l0 ns.

(** L276-300, [create_file]: the text of a new file. *)
Definition file_text (year copyright : text) (transformer : text -> res text) (l : text) : res text :=
  let? l0 := set_top_copyright year l copyright in transformer l0.

(** ProjectCreator.cpp L46-54, for a path which is not empty. *)
Definition set_proj_name (l name : text) : res text :=
  let? proj := subst name ⌜" "⌝ ⌜"_"⌝ in
  let? l1 := subst l ⌜"MyProject"⌝ proj in
  subst l1 ⌜"myProject"⌝ (uncapitalize proj).
