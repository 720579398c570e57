(** C89: the names of types are brought into a common form. *)
From Coq Require Import Ascii String.
From stdpp Require Import list relations.
From Verif.Base Require Import Outcome.
From Verif.Text Require Import Model Spec.
From Verif.Names Require Import Model Spec Proofs ProofsCasts ProofsGaps ProofsLiterals.
Local Notation "⌜ s ⌝" := (list_ascii_of_string s%string).

(** Conversions for the examples: every number is 3.14, and its hexadecimal form has 13 characters. *)
Definition some_conversions : conversions :=
  Conversions (fun _ => Some 5%Z) (fun _ _ => ("3"%char, ⌜".140000"⌝)) (fun _ => (13, ("3"%char, ⌜".140000"⌝))).

(** ** Termination *)

(** The names of every compiler: a result is reached, whatever the name and however numbers are converted;
    for MSVC it is never undefined behaviour. *)
Theorem C89_terminates sc lp64 cv i64 name :
  tidy_name_gcc sc lp64 cv name <> NoFuel /\ tidy_name_clang sc lp64 cv name <> NoFuel /\
  exists out, tidy_name_msvc i64 name = Ok out.
Proof.
  exact (conj (tidy_name_gcc_fuel sc lp64 cv name)
          (conj (tidy_name_clang_fuel sc lp64 cv name) (tidy_name_msvc_ok i64 name))).
Qed.
Print Assumptions C89_terminates.

Example C89_terminates_ex :
  tidy_name_gcc true true some_conversions ⌜"a<std::__cxx11::b<(E)3, 4ul, true>, (float)[4048F5C3]>"⌝ = Ok ⌜"a<std::b<3, 4, 1>, 3.140000>"⌝ /\
  tidy_name_clang true true some_conversions ⌜"std::__1::a<b<0x1.91eb86p+1f>, false>"⌝ = Ok ⌜"std::a<b<3.140000>, 0>"⌝ /\
  tidy_name_msvc None ⌜"class a<struct b<enum c,int * __ptr64>,class std::_Array_const_iterator<int,1> >"⌝ = Ok ⌜"a<b<c, int*>, int const*>"⌝.
Proof. repeat split; vm_compute; reflexivity. Qed.

(** ** Casts in front of enumerators *)

(** Nothing but texts in brackets directly in front of a digit is removed; and if every bracket is closed,
    there is no undefined behaviour. *)
Theorem C89_casts_only sc name : Forall ascii7 name ->
  (forall out, rbind (remove_enum_spec sc name) (remove_casts sc) = Ok out -> rtc uncast name out) /\
  (all_closed name -> exists out, rbind (remove_enum_spec sc name) (remove_casts sc) = Ok out).
Proof. exact (both_all sc name). Qed.
Print Assumptions C89_casts_only.

(** All of them are removed if there are at most two texts in brackets, without casts inside the second ... *)
Theorem C89_casts_two_partial sc t0 g1 t1 g2 t2 :
  "("%char ∉ t0 -> group g1 -> "("%char ∉ t1 -> group g2 -> "("%char ∉ t2 ->
  (forall x, ~ uncast g2 x) -> Forall ascii7 (g1 ++ t1 ++ g2 ++ t2) ->
  rbind (remove_enum_spec sc (t0 ++ g1 ++ t1 ++ g2 ++ t2)) (remove_casts sc) =
  Ok (t0 ++ kept g1 t1 ++ t1 ++ kept g2 t2 ++ t2).
Proof. exact (both_two sc t0 g1 t1 g2 t2). Qed.
Print Assumptions C89_casts_two_partial.

(** ... and for any number of texts in brackets if each of those removed is no longer than the text between
    it and the next one. *)
Theorem C89_casts_gaps_partial sc t segs :
  "("%char ∉ t -> Forall segment_ok segs -> gaps segs -> Forall ascii7 (segments segs) ->
  rbind (remove_enum_spec sc (t ++ segments segs)) (remove_casts sc) = Ok (t ++ kept_segments segs).
Proof. exact (both_segments sc t segs). Qed.
Print Assumptions C89_casts_gaps_partial.

Lemma group_ex : group ⌜"(E)"⌝.
Proof.
  split; [done|]. split; [done|]. intros k Hk. cbn in Hk.
  destruct k as [|[|[|k]]]; [lia|done|done|lia].
Qed.
Example C89_casts_ex :
  group ⌜"(E)"⌝ /\ (forall x, ~ uncast ⌜"(E)"⌝ x) /\ gaps [(⌜"(E)"⌝, ⌜"2, "⌝); (⌜"(E)"⌝, ⌜"::x, "⌝); (⌜"(E)"⌝, ⌜"1>"⌝)] /\
  rbind (remove_enum_spec true ⌜"a<(E)2, (E)::x, (E)1>"⌝) (remove_casts true) = Ok ⌜"a<2, (E)::x, 1>"⌝.
Proof.
  split; [exact group_ex|]. split; [|split; [|vm_compute; reflexivity]].
  - intros x (pre&g&d&post&E&Hg&Hd&_). apply (f_equal (fun l => Forall (fun c => ~ a_digit c) l)) in E.
    assert (Forall (fun c => ~ a_digit c) ⌜"(E)"⌝) as H by (apply (bool_decide_unpack _); by vm_compute).
    rewrite E in H. rewrite !Forall_app, Forall_cons in H. tauto.
  - cbn [gaps]. split; [right; cbn; lia|]. split; [|done]. by left.
Qed.

(** Three casts, the first being long: the third stays.  And a cast within brackets which are not in front of
    a digit - the parameters of a function - stays. *)
Theorem C89_casts_refuted :
  (exists name out, tidy_name_gcc true true some_conversions name = Ok out /\
    out = ⌜"foo<0, 1, (bar)2>"⌝ /\ exists out', uncast out out') /\
  (exists name, tidy_name_gcc true true some_conversions name = Ok name /\
    name = ⌜"std::function<void (foo<(bar)2>)>"⌝ /\ exists out', uncast name out').
Proof.
  assert (group ⌜"(bar)"⌝) as Hg.
  { split; [done|]. split; [done|]. intros k Hk. cbn in Hk. destruct k as [|[|[|[|[|k]]]]]; [lia|done|done|done|done|lia]. }
  split.
  - exists ⌜"foo<(baz_qux_quux)0, (bar)1, (bar)2>"⌝, ⌜"foo<0, 1, (bar)2>"⌝.
    split; [vm_compute; reflexivity|]. split; [done|]. exists ⌜"foo<0, 1, 2>"⌝, ⌜"foo<0, 1, "⌝, ⌜"(bar)"⌝, "2"%char, ⌜">"⌝.
    split; [done|]. split; [done|]. split; [|done]. apply (bool_decide_unpack _). by vm_compute.
  - exists ⌜"std::function<void (foo<(bar)2>)>"⌝. split; [vm_compute; reflexivity|]. split; [done|].
    exists ⌜"std::function<void (foo<2>)>"⌝, ⌜"std::function<void (foo<"⌝, ⌜"(bar)"⌝, "2"%char, ⌜">)>"⌝.
    split; [done|]. split; [done|]. split; [|done]. apply (bool_decide_unpack _). by vm_compute.
Qed.
Print Assumptions C89_casts_refuted.

(** The first opening bracket is not closed: undefined behaviour, as the scan for its end leaves the text. *)
Theorem C89_unclosed_refuted sc pre l : Forall ascii7 pre -> "("%char ∉ pre -> head l = Some "("%char ->
  (forall k, 0 < k <= List.length l -> (0 < depth "(" ")" (take k l))%Z) ->
  rbind (remove_enum_spec sc (pre ++ l)) (remove_casts sc) = UB.
Proof. exact (both_unclosed sc pre l). Qed.
Print Assumptions C89_unclosed_refuted.

(** This happens for a name whose brackets are all closed: the removal of the suffix of a number takes the
    closing bracket with it. *)
Theorem C89_closed_refuted : exists name, all_closed name /\
  tidy_name_gcc true true some_conversions name = UB /\ tidy_name_clang true true some_conversions name = UB.
Proof.
  exists ⌜"foo<(3ul)>"⌝. split; [|split; vm_compute; reflexivity].
  intros pre post E. exists ⌜"(3ul)"⌝, ⌜">"⌝.
  do 4 (destruct pre as [|? pre]; [discriminate E|injection E as _ E]).
  destruct pre as [|? pre].
  - injection E as <-. split; [done|]. split; [done|]. split; [done|]. intros k Hk. cbn in Hk.
    destruct k as [|[|[|[|[|k]]]]]; [lia|done|done|done|done|lia].
  - injection E as _ E. do 5 (destruct pre as [|? pre]; [discriminate E|injection E as _ E]). by destruct pre.
Qed.
Print Assumptions C89_closed_refuted.

(** ** Numbers *)

(** The letters behind numbers are removed. *)
Theorem C89_literals_partial sc cv xs tail : literals_ok xs tail ->
  process_literals sc cv (with_suffixes xs tail) = Ok (without_suffixes xs tail).
Proof. exact (process_literals_spec sc cv xs tail). Qed.
Print Assumptions C89_literals_partial.

Example C89_literals_ex :
  let xs := [Literal ⌜"a<b<"⌝ ⌜"12"⌝ ⌜"ul"⌝; Literal ⌜">, c, "⌝ ⌜"7"⌝ []; Literal ⌜", "⌝ ⌜"3"⌝ ⌜"f"⌝] in
  literals_ok xs ⌜"> "⌝ /\ with_suffixes xs ⌜"> "⌝ = ⌜"a<b<12ul>, c, 7, 3f> "⌝ /\ without_suffixes xs ⌜"> "⌝ = ⌜"a<b<12>, c, 7, 3> "⌝.
Proof.
  cbv zeta. split; [|done].
  assert (forall bl c, ~ a_letter c -> c <> underscore -> c <> "["%char -> forall b, b = bl ++ [c] ->
    exists l c, b = l ++ [c] /\ ~ a_letter c /\ c <> underscore /\ c <> "["%char) as HB by eauto 10.
  split; [|split; [|split; [|split]]].
  - repeat apply Forall_cons_2; [..|done]; (split; [apply (bool_decide_unpack _); by vm_compute|split;
      [|split; [split; [done|apply (bool_decide_unpack _); by vm_compute]|split;
        [unfold closing; apply (bool_decide_unpack _); by vm_compute|unfold a_letter; first [exact I|apply (bool_decide_unpack _); by vm_compute]]]]]).
    + apply (HB ⌜"a<b"⌝ "<"%char); [unfold a_letter; apply (bool_decide_unpack _); by vm_compute|done..].
    + apply (HB ⌜">, c,"⌝ " "%char); [unfold a_letter; apply (bool_decide_unpack _); by vm_compute|done..].
    + apply (HB ⌜","⌝ " "%char); [unfold a_letter; apply (bool_decide_unpack _); by vm_compute|done..].
  - intros x xs' [= <- _]. left. apply (bool_decide_unpack _). by vm_compute.
  - intros x xs' [= _ <-]. repeat apply Forall_cons_2; [..|done];
      (split; [eexists _, _; split; [reflexivity|unfold closing; tauto]|right; apply (bool_decide_unpack _); by vm_compute]).
  - apply (bool_decide_unpack _). by vm_compute.
  - intros _. eexists _, _. split; [reflexivity|]. unfold closing. tauto.
Qed.

(** A digit within the name of a template: the numbers among the arguments of this template keep their
    suffix. *)
Theorem C89_literals_refuted : exists name out,
  name = ⌜"foo<vec3<2ul>, vec<2ul>>"⌝ /\ out = ⌜"foo<vec3<2ul>, vec<2> >"⌝ /\
  tidy_name_gcc true true some_conversions name = Ok out /\ tidy_name_clang true true some_conversions name = Ok out.
Proof. eexists _, _. split; [reflexivity|]. split; [reflexivity|]. split; vm_compute; reflexivity. Qed.
Print Assumptions C89_literals_refuted.

(** Floating-point numbers given by their bits are left alone if the first hexadecimal digit is a letter -
    among others all negative ones -, however numbers are converted.  And at the very end of a name such a
    number is undefined behaviour. *)
Theorem C89_bits_refuted : (forall cv, tidy_name_gcc true true cv ⌜"foo<(double)[c000000000000000]>"⌝ = Ok ⌜"foo<(double)[c000000000000000]>"⌝) /\
  tidy_name_gcc true true some_conversions ⌜"foo<(double)[4000000000000000]>"⌝ = Ok ⌜"foo<3.140000>"⌝ /\
  tidy_name_gcc true true some_conversions ⌜"foo<(double)[4000000000000000]"⌝ = UB.
Proof. split; [intros cv; vm_compute; reflexivity|]. split; vm_compute; reflexivity. Qed.
Print Assumptions C89_bits_refuted.

(** ** Spans *)

(** The dynamic extent of the first span becomes -1 if the element type contains neither comma nor bracket. *)
Theorem C89_spans_partial pre el post :
  ~ occurs ⌜"::span<"⌝ (pre ++ ⌜"::span"⌝) -> ","%char ∉ el -> ">"%char ∉ el ->
  process_spans (pre ++ ⌜"::span<"⌝ ++ el ++ ⌜", 18446744073709551615>"⌝ ++ post) =
  Ok (pre ++ ⌜"::span<"⌝ ++ el ++ ⌜", -1>"⌝ ++ post).
Proof. exact (process_spans_spec pre el post). Qed.
Print Assumptions C89_spans_partial.

Example C89_spans_ex : ~ occurs ⌜"::span<"⌝ (⌜"std"⌝ ++ ⌜"::span"⌝) /\
  tidy_name_gcc true true some_conversions ⌜"std::span<int, 18446744073709551615ul>"⌝ = Ok ⌜"std::span<int, -1>"⌝.
Proof.
  split; [|vm_compute; reflexivity]. apply Verif.Text.Proofs.find_first_None. vm_compute. reflexivity.
Qed.

(** The second of two spans, and a span of elements whose type is a template, keep the number. *)
Theorem C89_spans_refuted :
  tidy_name_gcc true true some_conversions ⌜"a<std::span<int, 18446744073709551615ul>, std::span<int, 18446744073709551615ul>>"⌝ =
    Ok ⌜"a<std::span<int, -1>, std::span<int, 18446744073709551615> >"⌝ /\
  tidy_name_gcc true true some_conversions ⌜"std::span<a<int>, 18446744073709551615ul>"⌝ = Ok ⌜"std::span<a<int>, 18446744073709551615>"⌝.
Proof. split; vm_compute; reflexivity. Qed.
Print Assumptions C89_spans_refuted.

(** ** Words *)

(** "long" is replaced inside other words as well. *)
Theorem C89_long_refuted :
  tidy_name_gcc true true some_conversions ⌜"a<long, unsigned long, long long>"⌝ = Ok ⌜"a<long long, unsigned long long, long long>"⌝ /\
  tidy_name_gcc true true some_conversions ⌜"belongs_to<int>"⌝ = Ok ⌜"belong longs_to<int>"⌝.
Proof. split; vm_compute; reflexivity. Qed.
Print Assumptions C89_long_refuted.

(** With MSVC the iterators of an array whose size is not 1 lose their name; and the rest of the name, up to
    the next ", 1>", may be taken for the type of the elements. *)
Theorem C89_array_iterators_refuted :
  tidy_name_msvc None ⌜"class std::_Array_const_iterator<int,3>"⌝ = Ok ⌜"int, 3> const*::_Array_const_iterator<int, 3>"⌝ /\
  tidy_name_msvc None ⌜"class foo<class std::_Array_const_iterator<int,3>,1>"⌝ = Ok ⌜"foo<int, 3> const*"⌝.
Proof. split; vm_compute; reflexivity. Qed.
Print Assumptions C89_array_iterators_refuted.
