(** Products of units with [no_unit_t] by way of reduction. *)
From stdpp Require Import list sorting.
From Coq Require Import ZArith.
From Verif.Base Require Import Outcome Order ListLemmas.
From Verif.Meta Require Import Spec Proofs.
From Verif.Meta Require Model.
From Verif.Products Require Import Model Spec Proofs ProofsUnits.

Section units.
  Context (no_unit : nat) (validator_of : nat -> validator).
  Local Notation none := (Base no_unit).

  (** Factors, or [no_unit_t] *)
  Definition wide (t : ty) : Prop := t = none \/ proper_factor no_unit t.
  Lemma wide_simple t : wide t -> simple t = true /\ displacement t = false.
  Proof. intros [-> |H]; [done|]. split; [by apply (proper_simple no_unit)|]. by destruct t as [?|[?| |]|[?|[?| |]|]]. Qed.
  Lemma wide_agree l : Forall wide l -> agree comparator key_less l.
  Proof.
    rewrite Forall_forall. intros H x y Hx Hy. destruct (wide_simple x (H x Hx)) as [S1 D1]. destruct (wide_simple y (H y Hy)) as [S2 D2].
    apply comparator_spec; [done..|]. unfold clash. destruct (negb _); [|done]. by destruct x as [?|[?| |]|[?|[?| |]|]], y as [?|[?| |]|[?|[?| |]|]].
  Qed.

  Lemma finish_with_none s l : s ≡ₚ none :: l -> Forall (proper_factor no_unit) l -> reduced l -> l <> [] -> sorted_by key_less s ->
    finish_units no_unit validator_of s = to_composite_unit validator_of l.
  Proof.
    intros Hp Hl Hr Hne Hsort. rewrite Forall_forall in Hl.
    assert (forall t, t ∈ s -> wide t) as Hw.
    { intros t. rewrite Hp, elem_of_cons. intros [-> |H]; [by left|right; by apply Hl]. }
    assert (forall t, t ∈ l -> t ∈ s) as Hsub by (intros t H; rewrite Hp; by right).
    destruct (count_and_combine_spec s) as (acc & Eacc & Hc); [intros t Ht; by apply wide_simple, Hw|done|].
    assert (forall n, at_name n displacement s = false) as Hdis.
    { intros n. apply not_true_iff_false. rewrite at_name_true. intros (u & Hu & _ & Hd). destruct (wide_simple u (Hw u Hu)). congruence. }
    assert (forall c, c ∈ acc -> same c.1 none = Nat.eqb (name c.1) no_unit) as Hsame.
    { intros c Hin. destruct (counted_entry _ _ Hc c Hin) as [E _]. destruct (Nat.eqb_spec (name c.1) no_unit) as [En|En].
      - apply same_spec. rewrite E, En. unfold kind. rewrite Hdis.
        replace (at_name no_unit (fun t => negb (is_dual t)) s) with true; [done|]. symmetry. apply at_name_true. exists none. split; [|done].
        rewrite Hp. left.
      - apply not_true_iff_false. rewrite same_spec. intros E'. apply En. by rewrite E'. }
    assert (forall n, n <> no_unit -> exponent n s = exponent n l) as Hexps.
    { intros n Hn. rewrite (exponent_perm n s _ Hp). cbn [exponent name]. rewrite (proj2 (Nat.eqb_neq no_unit n)) by congruence. lia. }
    destruct (reverse_unpack_spec s acc (prunable_unit no_unit) Hc) as (r & Er & Hred & Hin & Hexp & Hno).
    assert (reverse r = l) as Erl.
    { apply (reduced_unique no_unit validator_of); [|apply Forall_forall; exact Hl|done|done|].
      - rewrite Forall_forall. intros x Hx. destruct (Hin x Hx) as (c & Hca & Hd & -> & _).
        unfold prunable_unit in Hd. apply orb_false_iff in Hd as [_ Hd]. rewrite Hsame in Hd by done. apply Nat.eqb_neq in Hd.
        unfold out. rewrite Hdis. by destruct (0 <=? _)%Z.
      - intros n. destruct (decide (n = no_unit)) as [-> |Hn].
        + rewrite (exponent_no_unit no_unit l) by (by apply Forall_forall). apply Hno. intros c Hca Hd En.
          unfold prunable_unit in Hd. apply orb_false_iff in Hd as [_ Hd]. rewrite Hsame in Hd by done. by apply Nat.eqb_neq in Hd.
        + destruct (decide (Exists (fun c : ty * Z => name c.1 = n) acc)) as [H|H].
          * apply Exists_exists in H as (c & Hca & Ec). subst n. destruct (prunable_unit no_unit c) eqn:Epc.
            -- rewrite Hno; [|intros c' Hc' Hd' Heq].
               ++ unfold prunable_unit in Epc. rewrite Hsame in Epc by done. rewrite (proj2 (Nat.eqb_neq _ _) Hn), orb_false_r in Epc.
                  destruct (counted_entry _ _ Hc c Hca) as [_ E2]. rewrite <-Hexps by done. destruct (power_cases c.1) as [E|E]; rewrite E in E2; lia.
               ++ unfold prunable_unit in Hd', Epc. rewrite Hsame in Hd', Epc by done. rewrite Heq in Hd'.
                  destruct (counted_entry _ _ Hc c Hca) as [K1 E1]. destruct (counted_entry _ _ Hc c' Hc') as [K2 E2]. rewrite Heq in K2, E2.
                  rewrite (proj2 (Nat.eqb_neq _ _) Hn), orb_false_r in Hd', Epc. rewrite <-K1 in K2. rewrite K2 in E2. lia.
            -- rewrite Hexp by done. by apply Hexps.
          * rewrite Hno by (intros c Hca _ En; apply H, Exists_exists; by exists c). symmetry. apply exponent_zero.
            intros t Ht En. destruct (counted_all _ _ Hc t (Hsub t Ht)) as (c & Hca & Hcn). apply H, Exists_exists. exists c. split; [done|congruence]. }
    unfold finish_units. rewrite Eacc. cbn [mbind option_bind].
    assert (reduce_units no_unit acc = Some r) as ->.
    { assert ((fs ← Meta.Model.filter_by_trait (prunable_unit no_unit) acc; unpack fs) = Some r) as Er'.
      { rewrite filter_by_trait_spec. cbn [mbind option_bind]. rewrite <- Er. by f_equal. }
      unfold reduce_units. destruct acc as [|c1 [|c2 acc]]; [| |by destruct c1].
      - destruct (counted_all _ _ Hc none) as (c & Hca & _); [rewrite Hp; left|]. by apply elem_of_nil in Hca.
      - exfalso. destruct l as [|t l]; [done|]. destruct (counted_all _ _ Hc none) as (c & Hca & Hcn); [rewrite Hp; left|].
        destruct (counted_all _ _ Hc t) as (c' & Hca' & Hcn'); [apply Hsub; left|].
        apply elem_of_list_singleton in Hca as ->. apply elem_of_list_singleton in Hca' as ->. cbn [name] in Hcn.
        apply (proper_name no_unit t); [apply Hl; left|congruence]. }
    cbn [mbind option_bind]. by rewrite reverse_types_spec, Erl.
  Qed.

  Lemma none_sorted : sorted_by key_less [none].
  Proof. intros i j x y Hij Hi Hj. destruct i, j; try lia; done. Qed.

  Lemma none_left b : Forall (proper_factor no_unit) (factors b) -> reduced (factors b) -> factors b <> [] ->
    reduce_product no_unit validator_of (Single none) b = to_composite_unit validator_of (factors b) /\
    reduce_product no_unit validator_of b (Single none) = to_composite_unit validator_of (factors b).
  Proof.
    intros Hp Hr Hne. pose proof (reduced_sorted _ (proper_units_simple no_unit _ Hp) Hr) as Hs.
    assert (forall k, k ≡ₚ none :: factors b -> agree comparator key_less k) as Hag.
    { intros k Hk. apply wide_agree. rewrite Hk. constructor; [by left|]. eapply Forall_impl; [exact Hp|]. intros x Hx. by right. }
    assert (forall s, s ≡ₚ none :: factors b -> sorted_by key_less s -> finish_units no_unit validator_of s = to_composite_unit validator_of (factors b)) as Hf.
    { intros s H1 H2. by apply finish_with_none. }
    destruct b as [u|us]; cbn [factors] in *; unfold reduce_product.
    - destruct (stable_sort_ok comparator key_less key_less_sw [none; u]) as (l & -> & Hl & Hsl); [by apply Hag|].
      destruct (stable_sort_ok comparator key_less key_less_sw [u; none]) as (l' & -> & Hl' & Hsl'); [apply Hag; constructor|].
      cbn [mbind option_bind]. split; apply Hf; try done. rewrite Hl'. constructor.
    - destruct (merge_types_ok comparator key_less key_less_sw [none] us) as (l & -> & Hl & Hsl); [by apply Hag|apply none_sorted|done|].
      destruct (merge_types_ok comparator key_less key_less_sw us [none]) as (l' & -> & Hl' & Hsl'); [apply Hag; by rewrite (Permutation_app_comm us)|done|apply none_sorted|].
      cbn [mbind option_bind]. split; apply Hf; try done. rewrite Hl'. by rewrite (Permutation_app_comm us).
  Qed.

  Lemma none_none : reduce_product no_unit validator_of (Single none) (Single none) = Some (Single none).
  Proof.
    unfold reduce_product. destruct (stable_sort_ok comparator key_less key_less_sw [none; none]) as (s & -> & Hp & Hs).
    { apply wide_agree. repeat constructor. }
    cbn [mbind option_bind].
    assert (forall t, t ∈ s -> t = none) as Ht.
    { intros t. rewrite Hp. by intros [-> |[-> |[]%elem_of_nil]%elem_of_cons]%elem_of_cons. }
    destruct (count_and_combine_spec s) as (acc & Eacc & Hc); [intros t H; by rewrite (Ht t H)|done|].
    assert (forall c, c ∈ acc -> name c.1 = no_unit) as Hn.
    { intros c H. destruct (counted_only _ _ Hc c H) as (t & H' & <-). by rewrite (Ht t H'). }
    assert (exists c, acc = [c]) as [c ->].
    { destruct acc as [|c1 [|c2 acc]]; [|by exists c1|].
      - destruct (counted_all _ _ Hc none) as (c & H & _); [rewrite Hp; left|]. by apply elem_of_nil in H.
      - exfalso. pose proof (counted_sorted _ _ Hc) as H. apply StronglySorted_inv in H as [_ H]. rewrite Forall_forall in H.
        specialize (H c2 ltac:(left)). cbn beta in H. rewrite (Hn c1), (Hn c2) in H by (repeat constructor). lia. }
    destruct (counted_entry _ _ Hc c ltac:(left)) as [E1 E2]. rewrite (Hn c ltac:(left)) in E1, E2.
    assert (c.1 = none) as E.
    { rewrite E1. unfold kind. replace (at_name no_unit displacement s) with false.
      - replace (at_name no_unit (fun t => negb (is_dual t)) s) with true; [done|]. symmetry. apply at_name_true. exists none. split; [|done].
        rewrite Hp. left.
      - symmetry. apply not_true_iff_false. rewrite at_name_true. intros (u & Hu & _ & Hd). by rewrite (Ht u Hu) in Hd. }
    rewrite (exponent_perm no_unit s _ Hp), E in E2. cbn [exponent name] in E2. rewrite Nat.eqb_refl in E2. cbn [power is_dual] in E2.
    destruct c as [u i]. cbn [fst snd] in E, E2. subst u i. unfold finish_units. rewrite Eacc. cbn [mbind option_bind]. unfold reduce_units.
    rewrite (proj2 (same_spec none none) eq_refl). done.
  Qed.

  (** The unit of a product of physical values is the product of the units. *)
  Lemma reduce_multiply a b : proper_unit no_unit a -> proper_unit no_unit b ->
    (forall x, x = a \/ x = b -> to_composite_unit validator_of (factors x) = Some x) ->
    reduce_product no_unit validator_of a b = multiply no_unit validator_of a b.
  Proof.
    intros Ha Hb Hw. unfold multiply. destruct (unit_cases no_unit validator_of b Hb) as [-> |(Hnb & Hpb & Hrb & Hneb)].
    - rewrite is_no_unit_refl. destruct (unit_cases no_unit validator_of a Ha) as [-> |(Hna & Hpa & Hra & Hnea)]; [apply none_none|].
      destruct (none_left a) as [_ ->]; try done. apply Hw. by left.
    - rewrite Hnb. destruct (unit_cases no_unit validator_of a Ha) as [-> |(Hna & Hpa & Hra & Hnea)].
      + rewrite is_no_unit_refl. destruct (none_left b) as [-> _]; try done. apply Hw. by right.
      + by rewrite Hna.
  Qed.
End units.
