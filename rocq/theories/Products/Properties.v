(** C61, C62, C63: products of units and of spaces, and conversions to base spaces. *)
From stdpp Require Import list sorting.
From Coq Require Import ZArith.
From Verif.Base Require Import Outcome.
From Verif.Products Require Import Model Spec Proofs ProofsUnits ProofsSpaces.

(** For the examples: 0 and 1 are the Euclidean line and half line, 2, 3, 4 and 6 the half lines of
    lengths, masses, times and widths, and 5 is the line of electrical currents; 7 is no unit, and the
    unit 8 has a validator like that of degrees Celsius. *)
Local Definition vec n := Nat.eqb n 5.
Local Definition half n := Nat.eqb n 2 || Nat.eqb n 3 || Nat.eqb n 4 || Nat.eqb n 6.
Local Definition base_of n := if Nat.eqb n 6 || Nat.eqb n 9 then 2 else n.
Local Definition validator_of n :=
  if Nat.eqb n 5 then Identity else if Nat.eqb n 8 then Other else HalfLine.
Local Notation mul := (multiply 7 validator_of).
Local Notation div := (divide 7 validator_of).
Local Notation prod := (space_product 0 1 vec half).

(** ** Units *)
Theorem C61_product no_unit validator_of a b c :
  proper_unit no_unit a -> proper_unit no_unit b -> multiply no_unit validator_of a b = Some c ->
  proper_unit no_unit c /\
  forall n, dimension no_unit c n = (dimension no_unit a n + dimension no_unit b n)%Z.
Proof. exact (product_spec no_unit validator_of a b c). Qed.
Print Assumptions C61_product.

Lemma proper_27 : proper_unit 7 (Composite [Base 2; Dual (Base 4)]).
Proof.
  split; [cbn; lia|]. split; [by repeat constructor|]. split; [repeat constructor; cbn; lia|].
  intros a b Ha Hb. repeat (apply elem_of_cons in Ha as [-> |Ha]; [|try by apply elem_of_nil in Ha]);
    repeat (apply elem_of_cons in Hb as [-> |Hb]; [|try by apply elem_of_nil in Hb]); done.
Qed.
Example C61_product_ex :
  proper_unit 7 (Composite [Base 2; Dual (Base 4)]) /\ proper_unit 7 (Single (Base 4)) /\
  mul (Composite [Base 2; Dual (Base 4)]) (Single (Base 4)) = Some (Single (Base 2)).
Proof. split; [exact proper_27|]. split; [by right|by vm_compute]. Qed.

(** A unit is determined by its dimension. *)
Theorem C61_unique no_unit a b :
  proper_unit no_unit a -> proper_unit no_unit b ->
  (forall n, dimension no_unit a n = dimension no_unit b n) -> a = b.
Proof. exact (dimension_unique no_unit (fun _ => Identity) a b). Qed.
Print Assumptions C61_unique.
Example C61_unique_ex : proper_unit 7 (Composite [Base 2; Dual (Base 4)]) /\
  dimension 7 (Composite [Base 2; Dual (Base 4)]) 4 = (-1)%Z.
Proof. split; [exact proper_27|by vm_compute]. Qed.

Theorem C61_commutative no_unit validator_of a b :
  proper_unit no_unit a -> proper_unit no_unit b ->
  multiply no_unit validator_of a b = multiply no_unit validator_of b a.
Proof. exact (product_comm no_unit validator_of a b). Qed.
Print Assumptions C61_commutative.
Example C61_commutative_ex :
  proper_unit 7 (Composite [Base 2; Dual (Base 4)]) /\ proper_unit 7 (Single (Base 3)) /\
  mul (Single (Base 3)) (Composite [Base 2; Dual (Base 4)]) = Some (Composite [Base 2; Base 3; Dual (Base 4)]).
Proof. split; [exact proper_27|]. split; [by right|by vm_compute]. Qed.

Theorem C61_associative_partial no_unit validator_of a b c ab bc x y :
  proper_unit no_unit a -> proper_unit no_unit b -> proper_unit no_unit c ->
  multiply no_unit validator_of a b = Some ab -> multiply no_unit validator_of ab c = Some x ->
  multiply no_unit validator_of b c = Some bc -> multiply no_unit validator_of a bc = Some y -> x = y.
Proof. exact (product_assoc no_unit validator_of a b c ab bc x y). Qed.
Print Assumptions C61_associative_partial.
Example C61_associative_partial_ex :
  mul (Single (Base 2)) (Single (Base 3)) = Some (Composite [Base 2; Base 3]) /\
  mul (Composite [Base 2; Base 3]) (Single (Dual (Base 3))) = Some (Single (Base 2)) /\
  mul (Single (Base 3)) (Single (Dual (Base 3))) = Some (Single (Base 7)) /\
  mul (Single (Base 2)) (Single (Base 7)) = Some (Single (Base 2)).
Proof. by vm_compute. Qed.

(** Which of the two orders of multiplication is well-formed can differ. *)
Theorem C61_associative_refuted :
  exists a b c ab bc x, proper_unit 7 a /\ proper_unit 7 b /\ proper_unit 7 c /\
    mul a b = Some ab /\ mul ab c = None /\ mul b c = Some bc /\ mul a bc = Some x.
Proof.
  exists (Single (Base 2)), (Single (Dual (Base 4))), (Composite [Dual (Base 2); Base 4]).
  exists (Composite [Base 2; Dual (Base 4)]), (Single (Dual (Base 2))), (Single (Base 7)).
  split; [by right|]. split; [by right|]. split; [|by vm_compute].
  exact (proj1 (dual_spec 7 (fun _ => Identity) _ proper_27)).
Qed.
Print Assumptions C61_associative_refuted.

Theorem C61_dual no_unit a :
  proper_unit no_unit a ->
  proper_unit no_unit (dual_of_unit no_unit a) /\
  (forall n, dimension no_unit (dual_of_unit no_unit a) n = - dimension no_unit a n)%Z /\
  dual_of_unit no_unit (dual_of_unit no_unit a) = a.
Proof. exact (dual_spec no_unit (fun _ => Identity) a). Qed.
Print Assumptions C61_dual.
Example C61_dual_ex : proper_unit 7 (Composite [Base 2; Dual (Base 4)]) /\
  dual_of_unit 7 (Composite [Base 2; Dual (Base 4)]) = Composite [Dual (Base 2); Base 4].
Proof. split; [exact proper_27|by vm_compute]. Qed.

Theorem C61_quotient no_unit validator_of a b :
  proper_unit no_unit a -> proper_unit no_unit b ->
  divide no_unit validator_of a b = multiply no_unit validator_of a (dual_of_unit no_unit b).
Proof. exact (divide_spec no_unit validator_of a b). Qed.
Print Assumptions C61_quotient.
Example C61_quotient_ex :
  proper_unit 7 (Composite [Base 2; Dual (Base 4)]) /\ proper_unit 7 (Single (Base 3)) /\
  div (Composite [Base 2; Dual (Base 4)]) (Single (Base 3)) = Some (Composite [Base 2; Dual (Base 3); Dual (Base 4)]).
Proof. split; [exact proper_27|]. split; [by right|by vm_compute]. Qed.

(** The quotient of a unit by itself. *)
Theorem C61_ratio_partial no_unit validator_of a :
  proper_unit no_unit a ->
  ((forall t u, t ∈ factors a -> u ∈ factors a -> name t = name u) ->
     divide no_unit validator_of a a = Some (Single (Base no_unit))) /\
  (~ (forall t u, t ∈ factors a -> u ∈ factors a -> name t = name u) -> divide no_unit validator_of a a = None).
Proof. exact (ratio_spec no_unit validator_of a). Qed.
Print Assumptions C61_ratio_partial.
Example C61_ratio_partial_ex :
  proper_unit 7 (Single (Base 2)) /\ div (Single (Base 2)) (Single (Base 2)) = Some (Single (Base 7)).
Proof. split; [by right|by vm_compute]. Qed.

Theorem C61_ratio_refuted :
  exists a, proper_unit 7 a /\ div a a = None.
Proof. exists (Composite [Base 2; Dual (Base 4)]). split; [exact proper_27|by vm_compute]. Qed.
Print Assumptions C61_ratio_refuted.

(** When the product is well-formed. *)
Theorem C61_defined_partial no_unit validator_of a b :
  (forall n, validator_of n <> Other) -> proper_unit no_unit a -> proper_unit no_unit b ->
  multiply no_unit validator_of a b = None <->
  (forall n, (dimension no_unit a n + dimension no_unit b n = 0)%Z) /\
  exists t u, t ∈ factors a ++ factors b /\ u ∈ factors a ++ factors b /\
    name t <> no_unit /\ name u <> no_unit /\ name t <> name u.
Proof. exact (product_defined no_unit validator_of a b). Qed.
Print Assumptions C61_defined_partial.
Example C61_defined_partial_ex :
  (forall n, (fun _ : nat => HalfLine) n <> Other) /\ proper_unit 7 (Single (Base 2)) /\ proper_unit 7 (Single (Base 3)) /\
  multiply 7 (fun _ => HalfLine) (Single (Base 2)) (Single (Base 3)) = Some (Composite [Base 2; Base 3]).
Proof. split; [done|]. split; [by right|]. split; [by right|by vm_compute]. Qed.

(** The validator of a product: half lines give a half line, anything with an unrestricted unit is
    unrestricted. *)
Theorem C61_validator_partial vs :
  Forall (fun v => v <> Other) vs -> vs <> [] ->
  (reduced_validator vs = Some Identity <-> Identity ∈ vs) /\
  (reduced_validator vs = Some HalfLine <-> Forall (fun v => v = HalfLine) vs).
Proof. exact (reduced_validator_values 0 (fun _ => Identity) vs). Qed.
Print Assumptions C61_validator_partial.
Example C61_validator_partial_ex :
  reduced_validator [HalfLine; HalfLine; HalfLine] = Some HalfLine /\
  reduced_validator [HalfLine; Identity; HalfLine] = Some Identity.
Proof. by vm_compute. Qed.

(** Products with a unit like degrees Celsius: whether they are well-formed depends on the names. *)
Theorem C61_defined_refuted :
  exists validator_of validator_of',
    multiply 7 validator_of (Single (Base 2)) (Single (Base 8)) = None /\
    (* identity, half line, other, in this order of the names and in another one *)
    (exists ab, multiply 7 validator_of (Single (Base 1)) (Single (Base 2)) = Some ab /\
       multiply 7 validator_of ab (Single (Base 8)) = None) /\
    (exists ab c, multiply 7 validator_of' (Single (Base 2)) (Single (Base 8)) = Some ab /\
       multiply 7 validator_of' ab (Single (Base 1)) = Some c /\
       (validator_of 1, validator_of 2, validator_of 8) = (Identity, HalfLine, Other) /\
       (validator_of' 8, validator_of' 2, validator_of' 1) = (Identity, HalfLine, Other)).
Proof.
  exists (fun n => if Nat.eqb n 1 then Identity else if Nat.eqb n 8 then Other else HalfLine).
  exists (fun n => if Nat.eqb n 8 then Identity else if Nat.eqb n 1 then Other else HalfLine).
  split; [by vm_compute|]. split.
  - exists (Composite [Base 1; Base 2]). by vm_compute.
  - exists (Composite [Base 2; Base 8]), (Composite [Base 1; Base 2; Base 8]). by vm_compute.
Qed.
Print Assumptions C61_defined_refuted.

(** ** Spaces *)
Theorem C62_product ev eh vec half a b c :
  distinct_spaces ev eh vec half ->
  harmonious (factors a ++ factors b) -> reduced (factors a) -> reduced (factors b) ->
  space_product ev eh vec half a b = Some c ->
  (forall n, n <> ev -> n <> eh -> exponent n (factors c) = exponent n (factors a) + exponent n (factors b))%Z /\
  (vector_space ev vec c <-> vector_space ev vec a \/ vector_space ev vec b).
Proof. exact (space_product_spec ev eh vec half a b c). Qed.
Print Assumptions C62_product.

Theorem C62_commutative_partial ev eh vec half a b :
  harmonious (factors a ++ factors b) -> reduced (factors a) -> reduced (factors b) ->
  space_product ev eh vec half a b = space_product ev eh vec half b a.
Proof. exact (space_product_comm ev eh vec half a b). Qed.
Print Assumptions C62_commutative_partial.

Theorem C62_defined_partial ev eh vec half a b :
  harmonious (factors a ++ factors b) -> reduced (factors a) -> reduced (factors b) -> factors a <> [] ->
  (forall t, t ∈ factors a ++ factors b -> free ev vec t = true \/ half_line eh half t = true) ->
  exists c, space_product ev eh vec half a b = Some c.
Proof. exact (space_product_defined ev eh vec half a b). Qed.
Print Assumptions C62_defined_partial.

(** The displacements of lengths, times masses, over times. *)
Local Definition momentum := [Ads (Base 2); Base 3; Dual (Base 4)].
Lemma distinct_ex : distinct_spaces 0 1 vec half.
Proof. repeat (split; [done|]). intros n. unfold half, vec. destruct (Nat.eqb_spec n 5) as [-> |]; [done|done]. Qed.
Ltac elems H := repeat (apply elem_of_cons in H as [-> |H]; [|try by apply elem_of_nil in H]).
Lemma momentum_reduced : reduced momentum.
Proof. split; [repeat constructor; cbn; lia|]. intros a b Ha Hb. elems Ha; elems Hb; done. Qed.
Lemma momentum_harmonious : harmonious (momentum ++ [Base 4]).
Proof.
  split; [intros t Ht; elems Ht; done|]. split; [intros a b Ha Hb; elems Ha; elems Hb; done|].
  intros n m _ (t & Ht & Hn & Hd) He. elems Ht; try done. cbn in Hn. subst n. cbn in He. lia.
Qed.
Example C62_product_ex :
  distinct_spaces 0 1 vec half /\ harmonious (factors (Composite momentum) ++ factors (Single (Base 4))) /\
  reduced (factors (Composite momentum)) /\
  prod (Composite momentum) (Single (Base 4)) = Some (Composite [Ads (Base 2); Base 3]).
Proof.
  split; [exact distinct_ex|]. split; [exact momentum_harmonious|]. split; [exact momentum_reduced|by vm_compute].
Qed.
Example C62_commutative_partial_ex :
  harmonious (factors (Composite momentum) ++ factors (Single (Base 4))) /\
  prod (Single (Base 4)) (Composite momentum) = Some (Composite [Ads (Base 2); Base 3]).
Proof. split; [exact momentum_harmonious|by vm_compute]. Qed.
Example C62_defined_partial_ex :
  forall t, t ∈ momentum ++ [Base 4] -> free 0 vec t = true \/ half_line 1 half t = true.
Proof. intros t Ht. elems Ht; by (left + right). Qed.

(** Displacements over displacements: in one order the product is ill-formed, in the other the factors
    are out of order. *)
Theorem C62_commutative_refuted :
  exists a b, simple a = true /\ simple b = true /\
    prod (Single a) (Single b) = None /\ exists c d, prod (Single b) (Single a) = Some (Composite [c; d]) /\ name d < name c.
Proof.
  exists (Dual (Ads (Base 4))), (Ads (Base 2)). split; [done|]. split; [done|]. split; [by vm_compute|].
  exists (Dual (Ads (Base 4))), (Ads (Base 2)). split; [by vm_compute|cbn; lia].
Qed.
Print Assumptions C62_commutative_refuted.

(** A dual, and the dual of displacements of another space: ill-formed. *)
Theorem C62_defined_refuted :
  exists a b, simple a = true /\ simple b = true /\
    prod (Single a) (Single b) = None /\ prod (Single b) (Single a) = None.
Proof. exists (Dual (Base 4)), (Dual (Ads (Base 2))). by vm_compute. Qed.
Print Assumptions C62_defined_refuted.

(** Products with the Euclidean line are out of order, and are not reduced afterwards. *)
Theorem C62_reduced_refuted :
  exists a b ab c, prod (Single a) (Single b) = Some ab /\ factors ab = [a; b] /\ name b < name a /\
    prod ab (Single (dual_of a)) = Some c /\ a ∈ factors c /\ dual_of a ∈ factors c.
Proof.
  exists (Base 3), (Base 0), (Composite [Base 3; Base 0]), (Composite [Base 3; Dual (Base 3); Base 0]).
  split; [by vm_compute|]. split; [done|]. split; [cbn; lia|]. split; [by vm_compute|].
  split; apply (bool_decide_unpack _); by vm_compute.
Qed.
Print Assumptions C62_reduced_refuted.

(** Not associative, even with a single space. *)
Theorem C62_associative_refuted :
  exists a b c ab bc x y, prod (Single a) (Single b) = Some ab /\ prod (Single b) (Single c) = Some bc /\
    prod ab (Single c) = Some x /\ prod (Single a) bc = Some y /\ x <> y.
Proof.
  exists (Base 4), (Ads (Base 4)), (Dual (Base 4)).
  exists (Composite [Ads (Base 4); Ads (Base 4)]), (Single (Base 0)), (Single (Ads (Base 4))), (Composite [Base 4; Base 0]).
  split; [by vm_compute|]. split; [by vm_compute|]. split; [by vm_compute|]. split; [by vm_compute|done].
Qed.
Print Assumptions C62_associative_refuted.

(** Half lines form an Abelian group: products are well-formed and reduced, exponents add. *)
Theorem C62_half_lines ev eh vec half a b :
  distinct_spaces ev eh vec half -> half_space eh half a -> half_space eh half b ->
  exists c, space_product ev eh vec half a b = Some c /\ half_space eh half c /\ proper_unit eh c /\
    forall n, dimension eh c n = (dimension eh a n + dimension eh b n)%Z.
Proof. exact (half_product ev eh vec half a b). Qed.
Print Assumptions C62_half_lines.

Theorem C62_half_lines_associative ev eh vec half a b c ab bc :
  distinct_spaces ev eh vec half -> half_space eh half a -> half_space eh half b -> half_space eh half c ->
  space_product ev eh vec half a b = Some ab -> space_product ev eh vec half b c = Some bc ->
  space_product ev eh vec half ab c = space_product ev eh vec half a bc.
Proof. exact (half_assoc ev eh vec half a b c ab bc). Qed.
Print Assumptions C62_half_lines_associative.

Theorem C62_half_lines_inverse ev eh vec half a :
  distinct_spaces ev eh vec half -> half_space eh half a ->
  space_product ev eh vec half a (dual_of_space a) = Some (Single (Base eh)).
Proof. exact (half_inverse ev eh vec half a). Qed.
Print Assumptions C62_half_lines_inverse.

Lemma speed_half : half_space 1 half (Composite [Base 2; Dual (Base 4)]).
Proof.
  split; [constructor; [by right|]; constructor; [by right|]; constructor|]. split; [split; [repeat constructor; cbn; lia|]|done].
  intros a b Ha Hb. elems Ha; elems Hb; done.
Qed.
Example C62_half_lines_ex :
  half_space 1 half (Composite [Base 2; Dual (Base 4)]) /\
  prod (Composite [Base 2; Dual (Base 4)]) (Composite [Base 2; Dual (Base 4)]) =
    Some (Composite [Base 2; Base 2; Dual (Base 4); Dual (Base 4)]).
Proof. split; [exact speed_half|by vm_compute]. Qed.
Example C62_half_lines_associative_ex :
  half_space 1 half (Composite [Base 2; Dual (Base 4)]) /\
  exists ab, prod (Composite [Base 2; Dual (Base 4)]) (Composite [Base 2; Dual (Base 4)]) = Some ab /\
    prod ab (Composite [Base 2; Dual (Base 4)]) <> None.
Proof.
  split; [exact speed_half|]. exists (Composite [Base 2; Base 2; Dual (Base 4); Dual (Base 4)]).
  split; by vm_compute.
Qed.
Example C62_half_lines_inverse_ex :
  half_space 1 half (Composite [Base 2; Dual (Base 4)]) /\
  prod (Composite [Base 2; Dual (Base 4)]) (Composite [Dual (Base 2); Base 4]) = Some (Single (Base 1)).
Proof. split; [exact speed_half|by vm_compute]. Qed.

(** ** Conversions *)
Theorem C63_single ev eh vec half base_of t fuel :
  (forall n, base_of (base_of n) = base_of n) -> simple t = true ->
  lower ev eh vec half base_of fuel (Single t) (Single (to_base base_of t)) = Some (Ok tt).
Proof.
  intros Hb Ht. destruct (to_base_single ev eh vec half base_of t Hb Ht) as [H1 H2].
  exact (lower_base ev eh vec half base_of fuel _ _ H1 H2).
Qed.
Print Assumptions C63_single.
Example C63_single_ex :
  (forall n, base_of (base_of n) = base_of n) /\ to_base base_of (Dual (Base 6)) = Dual (Base 2).
Proof. split; [|done]. intros n. unfold base_of. destruct (Nat.eqb n 6 || Nat.eqb n 9) eqn:E; [done|by rewrite E]. Qed.

(** The conversion to anything which is not its own base space does not return. *)
Theorem C63_base_only_partial ev eh vec half base_of fuel a t :
  lower ev eh vec half base_of fuel a t = Some (Ok tt) -> to_base_space ev eh vec half base_of t = Some t.
Proof. exact (lower_ok ev eh vec half base_of fuel a t). Qed.
Print Assumptions C63_base_only_partial.
Example C63_base_only_partial_ex :
  lower 0 1 vec half base_of 0 (Single (Base 6)) (Single (Base 2)) = Some (Ok tt).
Proof. by vm_compute. Qed.

(** Widths cannot be converted to heights, although the conversion is well-formed. *)
Theorem C63_sibling_refuted :
  exists a t, forall fuel, lower 0 1 vec half base_of fuel (Single a) (Single t) = Some NoFuel.
Proof.
  exists (Base 6), (Base 9). intros fuel.
  apply (lower_endless 0 1 vec half base_of fuel _ _ (Single (Base 2))); [by vm_compute..|done].
Qed.
Print Assumptions C63_sibling_refuted.

(** Nor can widths times masses be converted to lengths times masses. *)
Theorem C63_product_refuted :
  exists a b c d, prod (Single a) (Single b) = Some c /\ prod (Single (to_base base_of a)) (Single b) = Some d /\
    to_base base_of b = b /\
    forall fuel, lower 0 1 vec half base_of fuel c d <> Some (Ok tt).
Proof.
  exists (Base 6), (Base 3), (Composite [Base 3; Base 6]), (Composite [Base 2; Base 3]).
  split; [by vm_compute|]. split; [by vm_compute|]. split; [by vm_compute|].
  intros fuel H. apply lower_ok in H. by vm_compute in H.
Qed.
Print Assumptions C63_product_refuted.
