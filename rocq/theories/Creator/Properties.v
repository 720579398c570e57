(** Properties C80-C84: creation of tests, headers and sources. *)
From Coq Require Import Ascii String.
From stdpp Require Import list.
From Verif.Base Require Import Outcome ListLemmas.
From Verif.Text Require Import Model Spec Proofs.
From Verif.Creator Require Import Model Templates Spec ProofsTexts ProofsClass ProofsNames ProofsMore ProofsProject.
Local Open Scope res_scope.
Local Notation "⌜ s ⌝" := (list_ascii_of_string s%string).

Ltac decided := apply (bool_decide_unpack _); vm_compute; exact I.

(** ** C80: template parameters *)

(** A parameter is read as its last two words; blanks and dots behind it are ignored. *)
Theorem C80_parameter pre sp n sym trail :
  (pre = [] \/ last pre = Some blank) -> sp <> [] -> blank ∉ sp -> (pre = [] \/ head sp <> Some "."%char) ->
  sym <> [] -> blank ∉ sym -> last sym <> Some "."%char -> Forall (fun x => x ∈ ⌜" ."⌝) trail ->
  generate_spec (pre ++ sp ++ replicate (S n) blank ++ sym ++ trail) = Ok (Spec sp sym).
Proof. exact (spec_plain pre sp n sym trail). Qed.
Print Assumptions C80_parameter.
Example C80_parameter_ex : generate_spec ⌜"  class...   Ts ..  "⌝ = Ok (Spec ⌜"class..."⌝ ⌜"Ts"⌝).
Proof.
  refine (C80_parameter ⌜"  "⌝ ⌜"class..."⌝ 2 ⌜"Ts"⌝ ⌜" ..  "⌝ _ _ _ _ _ _ _ _); try done; [by right|decided|by right|decided|].
  cbn. repeat (apply Forall_cons; split; [decided|]). by apply Forall_nil.
Qed.

(** Dots which stand apart belong to the word in front of them. *)
Theorem C80_pack pre w dots n sym trail :
  (pre = [] \/ last pre = Some blank) -> blank ∉ w -> blank ∉ dots ->
  sym <> [] -> blank ∉ sym -> last sym <> Some "."%char -> Forall (fun x => x ∈ ⌜" ."⌝) trail ->
  generate_spec (pre ++ (w ++ [blank] ++ "."%char :: dots) ++ replicate (S n) blank ++ sym ++ trail)
  = Ok (Spec (w ++ [blank] ++ "."%char :: dots) sym).
Proof. exact (spec_dots pre w dots n sym trail). Qed.
Print Assumptions C80_pack.
Example C80_pack_ex : generate_spec ⌜" class ... Ts"⌝ = Ok (Spec ⌜"class ..."⌝ ⌜"Ts"⌝).
Proof.
  refine (C80_pack ⌜" "⌝ ⌜"class"⌝ ⌜".."⌝ 0 ⌜"Ts"⌝ [] _ _ _ _ _ _ _); try done; [by right|decided|decided|decided].
Qed.

(** A single word is rejected; without any word the parameter is empty. *)
Theorem C80_word n sym trail :
  sym <> [] -> blank ∉ sym -> last sym <> Some "."%char -> Forall (fun x => x ∈ ⌜" ."⌝) trail ->
  generate_spec (replicate n blank ++ sym ++ trail) = Throw RuntimeError.
Proof. exact (spec_word n sym trail). Qed.
Print Assumptions C80_word.
Theorem C80_blank str : Forall (fun x => x ∈ ⌜" ."⌝) str -> generate_spec str = Ok (Spec [] []).
Proof. exact (spec_none str). Qed.
Print Assumptions C80_blank.
Example C80_word_ex : generate_spec ⌜" class "⌝ = Throw RuntimeError /\ generate_spec ⌜" ... "⌝ = Ok (Spec [] []).
Proof. by vm_compute. Qed.

(** The parameters are what the commas between the first opening and the last closing bracket separate; the
    first which is wrong decides. *)
Theorem C80_list pre segs post :
  "<"%char ∉ pre -> segs <> [] -> Forall (fun s => ","%char ∉ s) segs -> lacks ⌜",>"⌝ post ->
  generate_data (pre ++ "<"%char :: join [","%char] segs ++ ">"%char :: post) = specs_of generate_spec segs.
Proof. exact (data_ok pre segs post). Qed.
Print Assumptions C80_list.
Example C80_list_ex :
  generate_data ⌜"foo<class T, int N>::bar"⌝ = specs_of generate_spec [⌜"class T"⌝; ⌜" int N"⌝]
  /\ generate_data ⌜"foo<class T, int N>"⌝ = Ok [Spec ⌜"class"⌝ ⌜"T"⌝; Spec ⌜"int"⌝ ⌜"N"⌝].
Proof.
  split; [|by vm_compute]. refine (C80_list ⌜"foo"⌝ [⌜"class T"⌝; ⌜" int N"⌝] ⌜"::bar"⌝ _ _ _ _); [decided|done|decided|].
  unfold lacks. decided.
Qed.

(** No opening bracket: no parameters.  No closing bracket behind the first opening one: rejected. *)
Theorem C80_none l : "<"%char ∉ l -> generate_data l = Ok [].
Proof. exact (data_none l). Qed.
Print Assumptions C80_none.
Theorem C80_unmatched pre post : "<"%char ∉ pre -> ">"%char ∉ post -> generate_data (pre ++ "<"%char :: post) = Throw RuntimeError.
Proof. exact (data_open pre post). Qed.
Print Assumptions C80_unmatched.
Example C80_unmatched_ex :
  generate_data ⌜"foo"⌝ = Ok [] /\ generate_data ⌜"foo<class T"⌝ = Throw RuntimeError /\ generate_data ⌜">foo<"⌝ = Throw RuntimeError.
Proof. by vm_compute. Qed.

(** Parameters are written as they should be, and what is written is read as it was. *)
Theorem C80_written ds : ds <> [] -> data_text ds = parameter_list ds.
Proof. exact (data_text_join ds). Qed.
Print Assumptions C80_written.
Theorem C80_round_trip pre ds : "<"%char ∉ pre -> ds <> [] -> Forall proper ds -> generate_data (pre ++ data_text ds) = Ok ds.
Proof. exact (round_trip pre ds). Qed.
Print Assumptions C80_round_trip.
Definition parameters_ex : list spec := [Spec ⌜"class"⌝ ⌜"T"⌝; Spec ⌜"typename ..."⌝ ⌜"Ts"⌝; Spec ⌜"std::size_t..."⌝ ⌜"Ns"⌝].
Lemma parameters_proper : Forall proper parameters_ex.
Proof.
  unfold parameters_ex. repeat (apply Forall_cons; split); [| | |by apply Forall_nil].
  - split; [split; [done|unfold lacks; decided]|]. split; [done|]. left. split; [split; [done|unfold lacks; decided]|done].
  - split; [split; [done|unfold lacks; decided]|]. split; [done|]. right. exists ⌜"typename"⌝, ⌜".."⌝.
    split; [done|]. split; (split; [done|unfold lacks; decided]).
  - split; [split; [done|unfold lacks; decided]|]. split; [done|]. left. split; [split; [done|unfold lacks; decided]|done].
Qed.
Example C80_round_trip_ex :
  data_text parameters_ex = ⌜"<class T, typename ... Ts, std::size_t... Ns>"⌝
  /\ generate_data (⌜"foo"⌝ ++ data_text parameters_ex) = Ok parameters_ex.
Proof. split; [by vm_compute|]. apply C80_round_trip; [decided|done|apply parameters_proper]. Qed.

(** All but the last word in front of the name of a parameter is dropped. *)
Theorem C80_species_refuted : exists l, generate_data l = Ok [Spec ⌜"long"⌝ ⌜"N"⌝] /\ l = ⌜"foo<unsigned long N>"⌝.
Proof. eexists. split; [|reflexivity]. by vm_compute. Qed.
Print Assumptions C80_species_refuted.
(** Two blanks in front of the dots: what the parameter is gets lost. *)
Theorem C80_dots_refuted : exists l, generate_data l = Ok [Spec ⌜" ..."⌝ ⌜"Ts"⌝] /\ l = ⌜"foo<class  ... Ts>"⌝.
Proof. eexists. split; [|reflexivity]. by vm_compute. Qed.
Print Assumptions C80_dots_refuted.
(** A comma behind the closing bracket is undefined behaviour. *)
Theorem C80_comma_refuted : exists l, generate_data l = UB /\ l = ⌜"foo<class T>, "⌝.
Proof. eexists. split; [|reflexivity]. by vm_compute. Qed.
Print Assumptions C80_comma_refuted.

(** ** C81: what a class is equivalent to *)

(** Passed by value are pointers, references, and types the first word of which is among those listed in the
    specification, and sizes.  A type without a word is rejected. *)
Theorem C81_by_value t w : first_word t w -> exists b, handle_as_ref t = Ok b /\ (b = false <-> by_value t w).
Proof. exact (handle_by_value t w). Qed.
Print Assumptions C81_by_value.
Theorem C81_blank n : handle_as_ref (replicate n blank) = Throw LogicError.
Proof. exact (handle_blank n). Qed.
Print Assumptions C81_blank.
Example C81_by_value_ex :
  first_word ⌜" long double"⌝ ⌜"long"⌝ /\ handle_as_ref ⌜" long double"⌝ = Ok false
  /\ handle_as_ref ⌜"std::string"⌝ = Ok true /\ handle_as_ref ⌜"foo*"⌝ = Ok false /\ handle_as_ref ⌜"size_t"⌝ = Ok false.
Proof.
  split; [|by vm_compute]. exists 1, ⌜" double"⌝. split; [done|]. split; [decided|]. split; [done|by right].
Qed.

(** The list of parameters: each type, constant, with a number if there are several. *)
Theorem C81_equivalents types : Forall (fun t => exists w, first_word t w) types ->
  exists outs, equivalents types = Ok (join ⌜", "⌝ outs) /\ List.length outs = List.length types
    /\ forall j t out, types !! j = Some t -> outs !! j = Some out -> passed (List.length types) j t out.
Proof. exact (equivalents_ok types). Qed.
Print Assumptions C81_equivalents.
Example C81_equivalents_ex :
  equivalents [⌜"std::vector<int>"⌝; ⌜"const char*"⌝; ⌜"double"⌝]
    = Ok ⌜"const std::vector<int>& prediction_0, const char* prediction_1, const double prediction_2"⌝
  /\ equivalents [⌜"int"⌝] = Ok ⌜"const int prediction"⌝
  /\ Forall (fun t => exists w, first_word t w) [⌜"std::vector<int>"⌝; ⌜"const char*"⌝].
Proof.
  split; [by vm_compute|]. split; [by vm_compute|].
  repeat (apply Forall_cons; split); [exists ⌜"std::vector<int>"⌝, 0, []|exists ⌜"const"⌝, 0, ⌜" char*"⌝|by apply Forall_nil];
    (split; [done|]; split; [decided|]; split; [done|]); [by left|by right].
Qed.

(** Types meant to be passed by value which are not: all of those with a sign or a width. *)
Theorem C81_types_refuted :
  exists ts, ts = [⌜"unsigned"⌝; ⌜"unsigned int"⌝; ⌜"uint8_t"⌝; ⌜"uint16_t"⌝; ⌜"uint32_t"⌝; ⌜"uint64_t"⌝; ⌜"int8_t"⌝; ⌜"int16_t"⌝; ⌜"int32_t"⌝; ⌜"int64_t"⌝]
    /\ Forall (fun t => handle_as_ref t = Ok true) ts /\ forall t, t ∈ drop 2 ts -> t ∈ other_types.
Proof.
  eexists. split; [reflexivity|]. split.
  - repeat (apply Forall_cons; split; [by vm_compute|]). by apply Forall_nil.
  - intros t Ht. cbn [drop] in Ht. unfold other_types. rewrite !elem_of_cons in *. tauto.
Qed.
Print Assumptions C81_types_refuted.
(** An empty type leaves its comma behind. *)
Theorem C81_empty_refuted : exists types, equivalents types = Ok ⌜"const int prediction_0, "⌝ /\ List.length types = 2.
Proof. exists [⌜"int"⌝; []]. by vm_compute. Qed.
Print Assumptions C81_empty_refuted.

(** ** C82: names *)

(** The namespace, the name itself, the template parameters and the name with its arguments are taken apart. *)
Theorem C82_name given ns f ds : lacks ⌜"<"⌝ (prefix_of ns) -> f <> [] -> lacks ⌜":<"⌝ f -> Forall proper ds ->
  split_name given (prefix_of ns ++ f ++ data_text ds)
  = Ok (Names (enclosing ns) f ds (prefix_of ns ++ f ++ if decide (ds = []) then [] else argument_list ds)).
Proof. exact (split_name_ok given ns f ds). Qed.
Print Assumptions C82_name.
Example C82_name_ex :
  split_name [] ⌜"bar::baz::foo<class T, typename ... Ts, std::size_t... Ns>"⌝
  = Ok (Names ⌜"bar::baz"⌝ ⌜"foo"⌝ parameters_ex ⌜"bar::baz::foo<T, Ts..., Ns...>"⌝).
Proof.
  refine (C82_name [] (Some ⌜"bar::baz"⌝) ⌜"foo"⌝ parameters_ex _ _ _ _); [unfold lacks; decided|done|unfold lacks; decided|apply parameters_proper].
Qed.

(** What is registered for behavioural tests: the class and its words as a title. *)
Theorem C82_constructors sc fl f s :
  Forall ascii7 (f ++ s) -> ~ occurs [underscore; underscore] (behavioural_class f [] s) ->
  match fl with
  | Standard => exists c, behavioural_constructors sc fl f s = Ok [c] /\ entitled (f ++ ⌜"_"⌝ ++ s) c
  | Diagnostics => exists c d, behavioural_constructors sc fl f s = Ok [c; d]
      /\ entitled (f ++ ⌜"_false_positive_"⌝ ++ s) c /\ entitled (f ++ ⌜"_false_negative_"⌝ ++ s) d
  end.
Proof. exact (constructors_ok sc fl f s). Qed.
Print Assumptions C82_constructors.
Example C82_constructors_ex :
  behavioural_constructors true Standard ⌜"my_function"⌝ ⌜"free_test"⌝ = Ok [⌜"my_function_free_test{""My Function Free Test""}"⌝]
  /\ behavioural_constructors true Diagnostics ⌜"foo"⌝ ⌜"diagnostics"⌝
     = Ok [⌜"foo_false_positive_diagnostics{""Foo False Positive Diagnostics""}"⌝; ⌜"foo_false_negative_diagnostics{""Foo False Negative Diagnostics""}"⌝].
Proof. by vm_compute. Qed.

(** Two underscores in a name: one is left in the title. *)
Theorem C82_underscores_refuted : exists f s, behavioural_constructors true Standard f s = Ok [⌜"foo__test{""Foo _test""}"⌝].
Proof. exists ⌜"foo_"⌝, ⌜"test"⌝. by vm_compute. Qed.
Print Assumptions C82_underscores_refuted.

(** ** C83: the files of tests *)

(** All placeholders are replaced, and nothing else is changed. *)
Theorem C83_behavioural sc year h o k l :
  ordinary o -> year_text year -> holder h -> test_type o = kind_name k -> (k = Free \/ k = Perf) -> l ∈ behavioural_templates ->
  file_text year h (behavioural_text sc o) l = Ok (with_copyright year h (instantiate (behavioural_table k o) (body l))).
Proof. exact (behavioural_file sc year h o k l). Qed.
Print Assumptions C83_behavioural.
Theorem C83_allocation sc year h o k l :
  ordinary o -> year_text year -> holder h -> test_type o = kind_name k -> (k = RegularAllocation \/ k = MoveOnlyAllocation) -> l ∈ allocation_templates ->
  file_text year h (allocation_text sc o) l = Ok (with_copyright year h (instantiate (allocation_table k o) (body l))).
Proof. exact (allocation_file sc year h o k l). Qed.
Print Assumptions C83_allocation.
Theorem C83_semantics sc year h o k ds qn types args l :
  ordinary o -> year_text year -> holder h -> test_type o = kind_name k -> (k = Regular \/ k = MoveOnly) -> l ∈ semantics_templates ->
  lacks (⌜"?;"⌝ ++ [tab]) (data_text ds) -> lacks ⌜"?"⌝ qn -> equivalents types = Ok args -> lacks (⌜"?;"⌝ ++ [tab]) args ->
  exists l1 l2, chosen k (body l) l1 /\ tested (negb (bool_decide (types = []))) l1 l2 /\
    file_text year h (semantics_text sc o ds qn types) l =
    Ok (with_copyright year h (instantiate (semantics_table k o (data_text ds) qn args (prediction (List.length types) 0 [])) l2)).
Proof. exact (semantics_file sc year h o k ds qn types args l). Qed.
Print Assumptions C83_semantics.

(** No placeholder is left. *)
Theorem C83_behavioural_complete sc year h o k l :
  ordinary o -> year_text year -> holder h -> test_type o = kind_name k -> (k = Free \/ k = Perf) -> l ∈ behavioural_templates ->
  exists F, file_text year h (behavioural_text sc o) l = Ok F /\ "?"%char ∉ F.
Proof. exact (behavioural_clean sc year h o k l). Qed.
Print Assumptions C83_behavioural_complete.
Theorem C83_allocation_complete sc year h o k l :
  ordinary o -> year_text year -> holder h -> test_type o = kind_name k -> (k = RegularAllocation \/ k = MoveOnlyAllocation) -> l ∈ allocation_templates ->
  exists F, file_text year h (allocation_text sc o) l = Ok F /\ "?"%char ∉ F.
Proof. exact (allocation_clean sc year h o k l). Qed.
Print Assumptions C83_allocation_complete.
Theorem C83_semantics_complete sc year h o k ds qn types args l :
  ordinary o -> year_text year -> holder h -> test_type o = kind_name k -> (k = Regular \/ k = MoveOnly) -> l ∈ semantics_templates ->
  lacks (⌜"?;"⌝ ++ [tab]) (data_text ds) -> lacks ⌜"?"⌝ qn -> equivalents types = Ok args -> lacks (⌜"?;"⌝ ++ [tab]) args ->
  exists F, file_text year h (semantics_text sc o ds qn types) l = Ok F /\ "?"%char ∉ F.
Proof. exact (semantics_clean sc year h o k ds qn types args l). Qed.
Print Assumptions C83_semantics_complete.

(** The classes registered are declared by the header and implemented by the source file. *)
Theorem C83_behavioural_defined sc year h o k :
  ordinary o -> year_text year -> holder h -> test_type o = kind_name k -> (k = Free \/ k = Perf) ->
  exists hpp cpp, file_text year h (behavioural_text sc o) my_behavioural_test_hpp = Ok hpp
    /\ file_text year h (behavioural_text sc o) my_behavioural_test_cpp = Ok cpp
    /\ declares (behavioural_class (forename o) [] (surname o)) hpp /\ implements (behavioural_class (forename o) [] (surname o)) cpp.
Proof. exact (behavioural_defined sc year h o k). Qed.
Print Assumptions C83_behavioural_defined.
Theorem C83_allocation_defined sc year h o k :
  ordinary o -> year_text year -> holder h -> test_type o = kind_name k -> (k = RegularAllocation \/ k = MoveOnlyAllocation) ->
  exists hpp cpp cls title, file_text year h (allocation_text sc o) my_class_allocation_test_hpp = Ok hpp
    /\ file_text year h (allocation_text sc o) my_class_allocation_test_cpp = Ok cpp
    /\ allocation_constructors (forename o) (surname o) = [cls ++ title] /\ head title = Some "{"%char
    /\ declares cls hpp /\ implements cls cpp.
Proof. exact (allocation_registered sc year h o k). Qed.
Print Assumptions C83_allocation_defined.
Theorem C83_semantics_defined sc year h o k ds qn types args :
  ordinary o -> year_text year -> holder h -> test_type o = kind_name k -> (k = Regular \/ k = MoveOnly) ->
  lacks (⌜"?;"⌝ ++ [tab]) (data_text ds) -> lacks ⌜"?"⌝ qn -> equivalents types = Ok args -> lacks (⌜"?;"⌝ ++ [tab]) args ->
  exists hpp cpp dhpp dcpp cls title dcls dtitle,
    file_text year h (semantics_text sc o ds qn types) my_class_test_hpp = Ok hpp
    /\ file_text year h (semantics_text sc o ds qn types) my_class_test_cpp = Ok cpp
    /\ file_text year h (semantics_text sc o ds qn types) my_class_testing_diagnostics_hpp = Ok dhpp
    /\ file_text year h (semantics_text sc o ds qn types) my_class_testing_diagnostics_cpp = Ok dcpp
    /\ semantics_constructors (forename o) (surname o) = [dcls ++ dtitle; cls ++ title]
    /\ head title = Some "{"%char /\ head dtitle = Some "{"%char
    /\ declares cls hpp /\ implements cls cpp /\ declares dcls dhpp /\ implements dcls dcpp.
Proof. exact (semantics_registered sc year h o k ds qn types args). Qed.
Print Assumptions C83_semantics_defined.

Definition setting_ex (k : kind) : setting := Setting ⌜"foo"⌝ ⌜"test"⌝ (kind_name k) ⌜"Foo"⌝ ⌜"Bar/Foo.hpp"⌝ ⌜"proj"⌝ ⌜"  "⌝.
Example C83_ex :
  ordinary (setting_ex Free) /\ year_text ⌜"2024"⌝ /\ holder ⌜"Jane Doe"⌝ /\ my_behavioural_test_hpp ∈ behavioural_templates
  /\ lacks (⌜"?;"⌝ ++ [tab]) (data_text parameters_ex) /\ lacks (⌜"?;"⌝ ++ [tab]) ⌜"const int prediction"⌝
  /\ file_text ⌜"2024"⌝ ⌜"Jane Doe"⌝ (behavioural_text true (setting_ex Free)) my_behavioural_test_cpp
     = Ok (replicate 68 "/"%char ++ [nl] ++ ⌜"//                    Copyright Jane Doe 2024.                    //"⌝
           ++ instantiate (behavioural_table Free (setting_ex Free)) (body my_behavioural_test_cpp)).
Proof.
  split; [|split; [|split; [|split; [left|split; [|split]]]]].
  - split; [unfold word; decided|]. split; [unfold word; decided|]. split; [unfold word; decided|]. split; [unfold word; decided|].
    split; [unfold lacks; decided|]. right. decided.
  - unfold year_text. decided.
  - split; [unfold lacks; decided|]. split; apply find_first_None; by vm_compute.
  - unfold lacks. decided.
  - unfold lacks. decided.
  - by vm_compute.
Qed.

(** Of the two classes registered with diagnostics one is not declared, the other one is declared twice. *)
Theorem C83_diagnostics_refuted : exists F a b,
  file_text ⌜"2024"⌝ ⌜"Jane Doe"⌝ (behavioural_text true (setting_ex Free)) my_behavioural_diagnostics_hpp = Ok F
  /\ behavioural_constructors true Diagnostics ⌜"foo"⌝ ⌜"test"⌝
     = Ok [⌜"foo_false_positive_test{""Foo False Positive Test""}"⌝; ⌜"foo_false_negative_test{""Foo False Negative Test""}"⌝]
  /\ ~ declares ⌜"foo_false_positive_test"⌝ F
  /\ F = a ++ b /\ declares ⌜"foo_false_negative_test"⌝ a /\ declares ⌜"foo_false_negative_test"⌝ b.
Proof. exact diagnostics_twice. Qed.
Print Assumptions C83_diagnostics_refuted.

(** With two tabs as indentation there are four in tests of allocations. *)
Theorem C83_indent_refuted : exists o F, code_indent o = [tab; tab]
  /\ file_text ⌜"2024"⌝ ⌜"Jane Doe"⌝ (allocation_text true o) my_class_allocation_test_hpp = Ok F
  /\ occurs ([nl; tab; tab; tab; tab] ++ ⌜"using namespace sequoia::testing;"⌝ ++ [nl]) F
  /\ occurs ([nl; tab] ++ ⌜"using namespace sequoia::testing;class "⌝) my_class_allocation_test_hpp.
Proof. exact indent_twice. Qed.
Print Assumptions C83_indent_refuted.

(** ** C84: headers and sources *)

Theorem C84_class year h o ds ns regular :
  ordinary o -> year_text year -> holder h -> lacks (⌜"?;"⌝ ++ [tab]) (data_text ds) -> lacks (⌜"?<"⌝ ++ [tab; nl]) ns ->
  class_header_text year h ns o ds (class_template regular) =
  Ok (with_copyright year h (instantiate (class_table o (data_text ds)) (unnested ns (instantiate (namespace_table ns) (body (class_template regular)))))).
Proof. exact (class_file year h o ds ns regular). Qed.
Print Assumptions C84_class.
Theorem C84_class_complete year h o ds ns regular :
  ordinary o -> year_text year -> holder h -> lacks (⌜"?;"⌝ ++ [tab]) (data_text ds) -> lacks (⌜"?<"⌝ ++ [tab; nl]) ns ->
  exists F, class_header_text year h ns o ds (class_template regular) = Ok F /\ "?"%char ∉ F
    /\ (ns <> [] -> occurs (⌜"namespace "⌝ ++ ns ++ [nl]) F) /\ occurs (⌜"class "⌝ ++ forename o ++ [nl]) F.
Proof. exact (class_defined year h o ds ns regular). Qed.
Print Assumptions C84_class_complete.
Theorem C84_source year h ns o :
  ordinary o -> year_text year -> holder h -> lacks (⌜"?<"⌝ ++ [tab; nl]) ns ->
  source_text year h ns (header_path o) (code_indent o) my_cpp_cpp =
  Ok (with_copyright year h (instantiate (source_table (header_path o) (code_indent o)) (unnested ns (instantiate (namespace_table ns) (body my_cpp_cpp))))).
Proof. exact (source_file year h ns o). Qed.
Print Assumptions C84_source.
Theorem C84_source_complete year h ns o :
  ordinary o -> year_text year -> holder h -> lacks (⌜"?<"⌝ ++ [tab; nl]) ns ->
  exists F, source_text year h ns (header_path o) (code_indent o) my_cpp_cpp = Ok F /\ "?"%char ∉ F
    /\ (ns <> [] -> occurs (⌜"namespace "⌝ ++ ns ++ [nl]) F) /\ occurs (⌜"#include """⌝ ++ header_path o ++ ⌜""""⌝ ++ [nl]) F.
Proof. exact (source_defined year h ns o). Qed.
Print Assumptions C84_source_complete.
Theorem C84_functions year h ns :
  year_text year -> holder h -> lacks (⌜"?<"⌝ ++ [tab; nl]) ns ->
  functions_header_text year h ns my_free_functions_hpp =
  Ok (with_copyright year h (unnested ns (instantiate (namespace_table ns) (body my_free_functions_hpp)))).
Proof. exact (functions_file year h ns). Qed.
Print Assumptions C84_functions.
Theorem C84_functions_complete year h ns :
  year_text year -> holder h -> lacks (⌜"?<"⌝ ++ [tab; nl]) ns ->
  exists F, functions_header_text year h ns my_free_functions_hpp = Ok F /\ "?"%char ∉ F
    /\ (ns <> [] -> occurs (⌜"namespace "⌝ ++ ns ++ [nl]) F).
Proof. exact (functions_defined year h ns). Qed.
Print Assumptions C84_functions_complete.

(** The line about the copyright is replaced, centred in the field between the slashes, and nothing else. *)
Theorem C84_copyright year h a b1 b2 d :
  "/"%char ∉ b1 ++ b2 -> ~ (exists j, j < List.length (a ++ ⌜"//"⌝ ++ b1) /\ occurs_at ⌜"Copyright"⌝ (a ++ ⌜"//"⌝ ++ (b1 ++ ⌜"Copyright"⌝ ++ b2) ++ ⌜"//"⌝ ++ d) j) ->
  set_top_copyright year (a ++ ⌜"//"⌝ ++ (b1 ++ ⌜"Copyright"⌝ ++ b2) ++ ⌜"//"⌝ ++ d) h
  = Ok (a ++ ⌜"//"⌝ ++ centred (List.length (b1 ++ ⌜"Copyright"⌝ ++ b2)) (headline year h) ++ ⌜"//"⌝ ++ d).
Proof. exact (top_general year h a b1 b2 d). Qed.
Print Assumptions C84_copyright.
Theorem C84_no_copyright year h l : ~ occurs ⌜"Copyright"⌝ l \/ ~ occurs ⌜"//"⌝ l -> set_top_copyright year l h = Throw RuntimeError.
Proof. exact (top_missing year h l). Qed.
Print Assumptions C84_no_copyright.
Example C84_ex :
  set_top_copyright ⌜"2024"⌝ ⌜"// Copyright A. Nonymous 2021.  //..."⌝ ⌜"Me"⌝ = Ok ⌜"//      Copyright Me 2024.      //..."⌝
  /\ set_top_copyright ⌜"2024"⌝ ⌜"int i;"⌝ ⌜"Me"⌝ = Throw RuntimeError
  /\ lacks (⌜"?<"⌝ ++ [tab; nl]) ⌜"bar::baz"⌝
  /\ functions_header_text ⌜"2024"⌝ ⌜"Me"⌝ ⌜"bar::baz"⌝ my_free_functions_hpp
     = Ok (with_copyright ⌜"2024"⌝ ⌜"Me"⌝ (take 306 (body my_free_functions_hpp) ++ ⌜"namespace bar::baz"⌝ ++ [nl] ++ ⌜"{"⌝ ++ [nl] ++ ⌜"}"⌝ ++ [nl])).
Proof. split; [by vm_compute|]. split; [by vm_compute|]. split; [unfold lacks; decided|]. by vm_compute. Qed.

(** The name of a project may be changed a second time. *)
Theorem C84_project_refuted : exists l name, set_proj_name l name = Ok ⌜"project xxmyProject"⌝ /\ l = ⌜"project MyProject"⌝ /\ name = ⌜"xmyProject"⌝.
Proof. eexists _, _. split; [|split; reflexivity]. by vm_compute. Qed.
Print Assumptions C84_project_refuted.

(** Otherwise, the name (blanks becoming underscores) is put in place of both placeholders, and nothing else changes.  Missing: names
    which, together with what stands around them, bring about the second placeholder. *)
Theorem C84_project_partial ps end_ name :
  let proj := subst_char " "%char ⌜"_"⌝ name in
  Forall (fun p => ~ occurs ⌜"MyProject"⌝ (fst p)) ps -> ~ occurs ⌜"MyProject"⌝ end_ ->
  Forall (fun s => ~ occurs ⌜"myProject"⌝ s) (fst (between proj ps end_) :: snd (between proj ps end_)) ->
  set_proj_name (named placeholder ps end_) name = Ok (named (fun b => if b then proj else uncapitalize proj) ps end_).
Proof. exact (project_ok ps end_ name). Qed.
Print Assumptions C84_project_partial.
Example C84_project_partial_ex :
  let ps := [(⌜"project("⌝, true); (⌜")"⌝, false); (⌜"My P"⌝, true)] in
  Forall (fun p => ~ occurs ⌜"MyProject"⌝ (fst p)) ps
  /\ Forall (fun s => ~ occurs ⌜"myProject"⌝ s) (fst (between ⌜"MyPy_Thing"⌝ ps ⌜"."⌝) :: snd (between ⌜"MyPy_Thing"⌝ ps ⌜"."⌝))
  /\ named placeholder ps ⌜"."⌝ = ⌜"project(MyProject)myProjectMy PMyProject."⌝
  /\ set_proj_name ⌜"project(MyProject)myProjectMy PMyProject."⌝ ⌜"MyPy Thing"⌝ = Ok ⌜"project(MyPy_Thing)myPy_ThingMy PMyPy_Thing."⌝.
Proof.
  split; [|split; [|by split; vm_compute]];
    repeat (apply Forall_cons; split; [cbn [fst]; intros H%find_first_None; [|vm_compute; reflexivity]; done|]); by apply Forall_nil.
Qed.
