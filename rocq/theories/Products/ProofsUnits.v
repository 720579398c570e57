From stdpp Require Import list sets sorting.
From Coq Require Import ZArith.
From Verif.Base Require Import Outcome Order ListLemmas.
From Verif.Meta Require Import Spec Proofs.
From Verif.Meta Require Model.
From Verif.Products Require Import Model Spec Proofs.

(** ** Order *)
Lemma key_less_sw : strict_weak key_less.
Proof. split; unfold key_less; intros; rewrite ?Nat.ltb_irrefl, ?Nat.ltb_lt, ?Nat.ltb_ge in *; try done; lia. Qed.

Lemma sorted_by_strongly l : sorted_by key_less l -> StronglySorted (fun a b => key a <= key b) l.
Proof.
  induction l as [|x l IH]; intros H; [constructor|]. constructor.
  - apply IH. intros i j a b Hij Hi Hj. apply (H (S i) (S j)); [lia|done|done].
  - rewrite Forall_forall. intros y Hy. apply elem_of_list_lookup in Hy as [j Hj].
    specialize (H 0 (S j) x y ltac:(lia) eq_refl Hj). unfold key_less in H. by apply Nat.ltb_ge in H.
Qed.

Lemma strongly_sorted_by l : StronglySorted (fun a b => key a <= key b) l -> sorted_by key_less l.
Proof.
  induction 1 as [|x l Hs IH Hx]; intros i j a b Hij Hi Hj; [done|].
  destruct j as [|j]; [lia|]. destruct i as [|i].
  - cbn in Hi. injection Hi as ->. rewrite Forall_forall in Hx. unfold key_less. apply Nat.ltb_ge.
    apply Hx. by eapply elem_of_list_lookup_2.
  - apply (IH i j); [lia|done|done].
Qed.

Lemma sorted_unique l k :
  (forall t, t ∈ l -> simple t = true) -> l ≡ₚ k -> sorted_by key_less l -> sorted_by key_less k -> l = k.
Proof.
  intros Hs Hp Hl Hk. apply sorted_by_strongly in Hl, Hk.
  revert k Hp Hk. induction Hl as [|x l Hl IH Hx]; intros k Hp Hk.
  - by apply Permutation_nil in Hp.
  - destruct Hk as [|y k Hk Hy]; [by symmetry in Hp; apply Permutation_nil in Hp|].
    rewrite Forall_forall in Hx. rewrite Forall_forall in Hy.
    assert (x = y) as ->.
    { assert (x ∈ y :: k) as Hxk by (rewrite <- Hp; left). assert (y ∈ x :: l) as Hyl by (rewrite Hp; left).
      apply elem_of_cons in Hxk as [Hxk|Hxk]; [done|]. apply elem_of_cons in Hyl as [Hyl|Hyl]; [done|].
      apply key_inj; [apply Hs; left|apply Hs; by right|].
      specialize (Hx y Hyl). specialize (Hy x Hxk). cbn in Hx, Hy. lia. }
    f_equal. apply IH; [|by apply Permutation_cons_inv in Hp|done].
    intros t Ht. apply Hs. by right.
Qed.

Lemma reduced_sorted ts : (forall t, t ∈ ts -> simple t = true) -> reduced ts -> sorted_by key_less ts.
Proof.
  intros Hs [H Hu]. apply strongly_sorted_by. induction H as [|x l Hsort IH Hx]; constructor.
  - apply IH; [intros; apply Hs; by right|]. intros a b Ha Hb. apply Hu; by right.
  - rewrite Forall_forall in *. intros y Hy. specialize (Hx y Hy).
    destruct (decide (name x = name y)) as [E|E].
    + rewrite (Hu x y); [done|left|by right|done].
    + assert (key x < key y); [|lia]. apply name_key; [apply Hs; left|apply Hs; by right|lia].
Qed.

Lemma reduced_tail t ts : reduced (t :: ts) -> reduced ts.
Proof.
  intros [H Hu]. apply StronglySorted_inv in H as [H _]. split; [done|]. intros a b Ha Hb. apply Hu; by right.
Qed.

(** ** Exponents determine reduced factors *)
Lemma exponent_sign n l p :
  (p = 1 \/ p = -1)%Z -> (forall x, x ∈ l -> name x = n -> power x = p) -> (0 <= p * exponent n l)%Z.
Proof.
  intros Hp. induction l as [|x l IH]; intros H; [cbn; lia|]. cbn.
  specialize (IH ltac:(intros; apply H; [by right|done])).
  destruct (Nat.eqb_spec (name x) n) as [E|E]; [|lia]. rewrite (H x) by (try left; done). lia.
Qed.
Lemma power_cases t : (power t = 1 \/ power t = -1)%Z.
Proof. unfold power. destruct (is_dual t); lia. Qed.
Lemma reduced_head t ts : reduced (t :: ts) -> (0 < power t * exponent (name t) (t :: ts))%Z.
Proof.
  intros [_ Hu]. cbn. rewrite Nat.eqb_refl.
  pose proof (exponent_sign (name t) ts (power t) (power_cases t)) as H.
  specialize (H ltac:(intros x Hx Hn; by rewrite (Hu x t); [|right|left|])).
  destruct (power_cases t) as [E|E]; rewrite E in *; lia.
Qed.
Lemma reduced_below t ts n : reduced (t :: ts) -> n < name t -> exponent n (t :: ts) = 0%Z.
Proof.
  intros [H _] Hn. apply exponent_zero. intros x Hx. apply StronglySorted_inv in H as [_ H]. rewrite Forall_forall in H.
  apply elem_of_cons in Hx as [-> |Hx]; [lia|]. specialize (H x Hx). cbn in H. lia.
Qed.

Section units.
  Context (no_unit : nat) (validator_of : nat -> validator).

  Lemma proper_simple t : proper_factor no_unit t -> simple t = true.
  Proof. by destruct t as [n|[n| |]|[n|[n| |]|]]. Qed.
  Lemma proper_name t : proper_factor no_unit t -> name t <> no_unit.
  Proof. by destruct t as [n|[n| |]|[n|[n| |]|]]. Qed.
  Lemma proper_eq t u : proper_factor no_unit t -> proper_factor no_unit u -> name t = name u -> power t = power u -> t = u.
  Proof.
    destruct t as [n|[n| |]|[n|[n| |]|]], u as [m|[m| |]|[m|[m| |]|]]; cbn; try done; by intros _ _ ->.
  Qed.
  Lemma proper_clash t u : proper_factor no_unit t -> proper_factor no_unit u -> clash t u = false.
  Proof.
    unfold clash. destruct t as [n|[n| |]|[n|[n| |]|]], u as [m|[m| |]|[m|[m| |]|]]; cbn; try done; intros _ _;
      by rewrite andb_false_r.
  Qed.
  Lemma proper_agree l : Forall (proper_factor no_unit) l -> agree comparator key_less l.
  Proof.
    rewrite Forall_forall. intros H x y Hx Hy. apply comparator_spec; [by apply proper_simple, H..|].
    by apply proper_clash; apply H.
  Qed.

  Lemma reduced_unique ts us :
    Forall (proper_factor no_unit) ts -> Forall (proper_factor no_unit) us -> reduced ts -> reduced us ->
    (forall n, exponent n ts = exponent n us) -> ts = us.
  Proof.
    revert us. induction ts as [|t ts IH]; intros [|u us] Hpt Hpu Ht Hu He; [done| | |].
    - pose proof (reduced_head u us Hu) as H. rewrite <- He in H. cbn in H. lia.
    - pose proof (reduced_head t ts Ht) as H. rewrite He in H. cbn in H. lia.
    - inversion Hpt as [|? ? Hpt1 Hpt2]; subst. inversion Hpu as [|? ? Hpu1 Hpu2]; subst.
      pose proof (reduced_head t ts Ht) as H1. pose proof (reduced_head u us Hu) as H2.
      destruct (Nat.lt_trichotomy (name t) (name u)) as [E|[E|E]].
      + rewrite He, (reduced_below u us) in H1 by done. lia.
      + assert (t = u) as ->.
        { apply proper_eq; try done. rewrite E, He in H1.
          destruct (power_cases t) as [Et|Et], (power_cases u) as [Eu|Eu]; rewrite Et, Eu in *; try done; lia. }
        f_equal. apply IH; try done.
        * by eapply reduced_tail. * by eapply reduced_tail.
        * intros n. specialize (He n). cbn in He. lia.
      + rewrite <- He, (reduced_below t ts) in H2 by done. lia.
  Qed.

  (** ** From the sorted factors to the product *)
  Definition one_name (l : list ty) : Prop := forall t u, t ∈ l -> u ∈ l -> name t = name u.

  Lemma same_spec a b : same a b = true <-> a = b.
  Proof.
    revert b. induction a as [n|a IH|a IH]; intros [m|b|b]; cbn; try (split; [discriminate|congruence]).
    - rewrite Nat.eqb_eq. split; congruence.
    - rewrite IH. split; congruence.
    - rewrite IH. split; congruence.
  Qed.

  Lemma finish_units_spec s :
    Forall (proper_factor no_unit) s -> sorted_by key_less s -> s <> [] ->
    exists r, Forall (proper_factor no_unit) r /\ reduced r /\ (forall n, exponent n r = exponent n s) /\
      (r = [] -> (one_name s /\ finish_units no_unit validator_of s = Some (Single (Base no_unit))) \/
                 (~ one_name s /\ finish_units no_unit validator_of s = None)) /\
      (r <> [] -> finish_units no_unit validator_of s = to_composite_unit validator_of r).
  Proof.
    intros Hp Hsort Hne.
    assert (forall t, t ∈ s -> simple t = true) as Hsimple.
    { rewrite Forall_forall in Hp. intros t Ht. by apply proper_simple, Hp. }
    destruct (count_and_combine_spec s Hsimple Hsort) as (acc & Eacc & Hc).
    assert (forall c, c ∈ acc -> exists t, t ∈ s /\ name t = name c.1) as Honly by apply Hc.
    assert (forall c, c ∈ acc -> same c.1 (Base no_unit) = false) as Hnu.
    { intros c Hin. apply not_true_iff_false. rewrite same_spec. intros E.
      destruct (Honly c Hin) as (t & Ht & Hn). rewrite E in Hn. rewrite Forall_forall in Hp.
      by apply (proper_name t (Hp t Ht)). }
    assert (forall c, c ∈ acc -> prunable_unit no_unit c = (exponent (name c.1) s =? 0)%Z) as Hprune.
    { intros c Hin. unfold prunable_unit. rewrite Hnu, orb_false_r by done.
      destruct (counted_entry _ _ Hc c Hin) as [_ ->]. destruct (power_cases c.1) as [-> | ->]; lia. }
    destruct (reverse_unpack_spec s acc (prunable_unit no_unit) Hc) as (r & Er & Hred & Hin & Hexp & Hno).
    assert (forall n, exponent n (reverse r) = exponent n s) as Hall.
    { intros n. destruct (decide (Exists (fun c : ty * Z => name c.1 = n) acc)) as [H|H].
      - apply Exists_exists in H as (c & Hca & <-).
        destruct (prunable_unit no_unit c) eqn:Epc; [|by apply Hexp].
        rewrite Hno.
        + rewrite Hprune in Epc by done. lia.
        + intros c' Hc' Hd' Heq. rewrite Hprune in Hd', Epc by done. rewrite Heq in Hd'. congruence.
      - rewrite Hno.
        + symmetry. apply exponent_zero. intros t Ht Hn. destruct (counted_all _ _ Hc t Ht) as (c & Hca & Hcn).
          apply H. apply Exists_exists. exists c. split; [done|congruence].
        + intros c Hca _ Hn. apply H. apply Exists_exists. by exists c. }
    exists (reverse r).
    assert (Forall (proper_factor no_unit) (reverse r)) as Hpr.
    { rewrite Forall_forall. intros x Hx. destruct (Hin x Hx) as (c & Hca & _ & -> & _).
      destruct (Honly c Hca) as (t & Ht & Hn). rewrite Forall_forall in Hp.
      pose proof (proper_name t (Hp t Ht)) as Hnn. rewrite Hn in Hnn. unfold out.
      assert (at_name (name c.1) displacement s = false) as ->.
      { apply not_true_iff_false. rewrite at_name_true. intros (u & Hu & _ & Hd). specialize (Hp u Hu).
        by destruct u as [?|[?| |]|[?|[?| |]|]]. }
      by destruct (0 <=? _)%Z. }
    split; [done|]. split; [done|]. split; [done|].
    assert (acc <> []) as Hane.
    { destruct s as [|t s']; [done|]. destruct (counted_all _ _ Hc t ltac:(left)) as (c & Hca & _).
      intros ->. by apply elem_of_nil in Hca. }
    unfold finish_units. rewrite Eacc. cbn [mbind option_bind].
    assert ((exists c, acc = [c] /\ c.2 = 0%Z /\ reduce_units no_unit acc = Some [Base no_unit]) \/
            (~ (exists c, acc = [c] /\ c.2 = 0%Z) /\ reduce_units no_unit acc = Some r)) as Hr.
    { assert ((fs ← Meta.Model.filter_by_trait (prunable_unit no_unit) acc; unpack fs) = Some r) as Er'.
      { rewrite filter_by_trait_spec. cbn [mbind option_bind]. rewrite <- Er. by f_equal. }
      unfold reduce_units. destruct acc as [|[u i] [|c2 acc]]; [done| |]; rewrite Er'.
      - destruct (Z.eqb_spec i 0) as [-> |Hi]; [left; by exists (u, 0%Z)|right].
        split; [intros ([? ?] & [= <- <-] & Hz); cbn in Hz; lia|].
        pose proof (Hnu (u, i) ltac:(left)) as Hu'. cbn [fst] in Hu'. rewrite Hu'. done.
      - right. split; [by intros (? & ? & _)|done]. }
    assert (one_name s <-> exists c, acc = [c]) as Hone.
    { split.
      - intros H. destruct acc as [|c1 [|c2 acc]]; [done|by exists c1|]. exfalso.
        destruct (Honly c1) as (t1 & Ht1 & Hn1); [left|]. destruct (Honly c2) as (t2 & Ht2 & Hn2); [right; left|].
        pose proof (counted_sorted _ _ Hc) as Hs. apply StronglySorted_inv in Hs as [_ Hs]. rewrite Forall_forall in Hs.
        specialize (Hs c2 ltac:(left)). cbn in Hs. rewrite (H t1 t2 Ht1 Ht2) in Hn1. lia.
      - intros [c ->] t u Ht Hu. destruct (counted_all _ _ Hc t Ht) as (c1 & Hc1 & <-).
        destruct (counted_all _ _ Hc u Hu) as (c2 & Hc2 & <-).
        apply elem_of_list_singleton in Hc1 as ->. by apply elem_of_list_singleton in Hc2 as ->. }
    destruct Hr as [(c & Ea & Hz & ->)|[Hnot ->]]; cbn [mbind option_bind]; rewrite reverse_types_spec.
    - subst acc. assert (reverse r = []) as Hnil.
      { destruct (reverse r) as [|x r'] eqn:E; [done|]. exfalso.
        destruct (Hin x ltac:(left)) as (c' & Hc' & _ & _ & Hx). apply elem_of_list_singleton in Hc' as ->.
        destruct (counted_entry _ _ Hc c ltac:(left)) as [_ H2]. rewrite Hz in H2.
        destruct (power_cases c.1) as [E'|E']; rewrite E' in H2; lia. }
      rewrite Hnil. split; [|done]. intros _. left. split; [|done]. apply Hone. by exists c.
    - split; [|done]. intros Hnil. rewrite Hnil. right. split; [|done]. intros H. apply Hone in H as [c ->].
      apply Hnot. exists c. split; [done|].
      destruct (counted_entry _ _ Hc c ltac:(left)) as [_ ->]. rewrite <- Hall, Hnil. cbn. lia.
  Qed.

  (** ** Products *)
  Lemma unit_cases a : proper_unit no_unit a ->
    a = Single (Base no_unit) \/
    (is_no_unit no_unit a = false /\ Forall (proper_factor no_unit) (factors a) /\ reduced (factors a) /\ factors a <> []).
  Proof.
    destruct a as [t|ts]; cbn.
    - intros [-> |H]; [by left|right]. split.
      { apply not_true_iff_false. rewrite same_spec. intros ->. done. }
      split; [by repeat constructor|]. split; [|done]. split; [repeat constructor|].
      intros a b Ha%elem_of_list_singleton Hb%elem_of_list_singleton. congruence.
    - intros (Hl & Hp & Hr). right. repeat (split; [done|]). intros ->. cbn in Hl. lia.
  Qed.

  Lemma proper_units_simple l : Forall (proper_factor no_unit) l -> forall t, t ∈ l -> simple t = true.
  Proof. rewrite Forall_forall. intros H t Ht. by apply proper_simple, H. Qed.

  Lemma reduce_product_sorted a b :
    Forall (proper_factor no_unit) (factors a) -> reduced (factors a) ->
    Forall (proper_factor no_unit) (factors b) -> reduced (factors b) ->
    exists s, s ≡ₚ factors a ++ factors b /\ sorted_by key_less s /\
      reduce_product no_unit validator_of a b = finish_units no_unit validator_of s.
  Proof.
    intros Ha Hra Hb Hrb.
    pose proof (reduced_sorted _ (proper_units_simple _ Ha) Hra) as Hsa.
    pose proof (reduced_sorted _ (proper_units_simple _ Hb) Hrb) as Hsb.
    assert (agree comparator key_less (factors a ++ factors b)) as Hag.
    { apply proper_agree. by apply Forall_app. }
    destruct a as [t|ts], b as [u|us]; cbn [factors] in *; unfold reduce_product.
    - destruct (stable_sort_ok comparator key_less key_less_sw [t; u] Hag) as (l & -> & Hp & Hs). by exists l.
    - destruct (merge_types_ok comparator key_less key_less_sw [t] us Hag Hsa Hsb) as (l & -> & Hp & Hs). by exists l.
    - destruct (merge_types_ok comparator key_less key_less_sw ts [u] Hag Hsa Hsb) as (l & -> & Hp & Hs). by exists l.
    - destruct (merge_types_ok comparator key_less key_less_sw ts us Hag Hsa Hsb) as (l & -> & Hp & Hs). by exists l.
  Qed.

  Lemma one_name_perm l k : l ≡ₚ k -> one_name l -> one_name k.
  Proof. intros Hp H t u Ht Hu. apply H; by rewrite Hp. Qed.

  Lemma not_one_name l : ~ one_name l -> exists t u, t ∈ l /\ u ∈ l /\ name t <> name u.
  Proof.
    intros H. destruct (decide (Exists (fun t => Exists (fun u => name t <> name u) l) l)) as [E|E].
    - apply Exists_exists in E as (t & Ht & E). apply Exists_exists in E as (u & Hu & E). eauto.
    - exfalso. apply H. intros t u Ht Hu. destruct (decide (name t = name u)); [done|]. exfalso. apply E.
      apply Exists_exists. exists t. split; [done|]. apply Exists_exists. by exists u.
  Qed.

  (** What the product of two units other than [no_unit_t] is. *)
  Lemma reduce_product_spec a b :
    Forall (proper_factor no_unit) (factors a) -> reduced (factors a) -> factors a <> [] ->
    Forall (proper_factor no_unit) (factors b) -> reduced (factors b) ->
    exists r, Forall (proper_factor no_unit) r /\ reduced r /\
      (forall n, exponent n r = exponent n (factors a) + exponent n (factors b))%Z /\
      (r = [] -> (one_name (factors a ++ factors b) /\
                    reduce_product no_unit validator_of a b = Some (Single (Base no_unit))) \/
                 (~ one_name (factors a ++ factors b) /\ reduce_product no_unit validator_of a b = None)) /\
      (r <> [] -> reduce_product no_unit validator_of a b = to_composite_unit validator_of r).
  Proof.
    intros Ha Hra Hne Hb Hrb. destruct (reduce_product_sorted a b) as (s & Hp & Hs & E); try done.
    destruct (finish_units_spec s) as (r & Hpr & Hrr & He & Hnil & Hcons).
    - rewrite Hp. by apply Forall_app.
    - done.
    - intros ->. apply Permutation_nil in Hp. destruct (factors a); done.
    - exists r. split; [done|]. split; [done|]. split.
      { intros n. rewrite He, <- exponent_app. by apply exponent_perm. }
      rewrite E. split; [|done]. intros Hr. destruct (Hnil Hr) as [[H1 H2]|[H1 H2]]; [left|right].
      + split; [by eapply one_name_perm|done].
      + split; [|done]. intros H. apply H1. eapply one_name_perm; [symmetry; exact Hp|done].
  Qed.

  Lemma to_composite_proper r c :
    Forall (proper_factor no_unit) r -> reduced r -> to_composite_unit validator_of r = Some c ->
    proper_unit no_unit c /\ factors c = r.
  Proof.
    intros Hp Hr. destruct r as [|t [|u r]]; cbn [to_composite_unit]; [done| |].
    - intros [= <-]. inversion Hp; subst. split; [by right|done].
    - destruct (reduced_validator _); [|done]. cbn [mbind option_bind]. intros [= <-]. split; [|done].
      split; [cbn; lia|]. done.
  Qed.

  Lemma exponent_no_unit l : Forall (proper_factor no_unit) l -> exponent no_unit l = 0%Z.
  Proof. rewrite Forall_forall. intros H. apply exponent_zero. intros t Ht. by apply proper_name, H. Qed.

  Lemma dimension_spec a n :
    Forall (proper_factor no_unit) (factors a) -> dimension no_unit a n = exponent n (factors a).
  Proof.
    intros H. unfold dimension. destruct (Nat.eqb_spec n no_unit) as [-> |]; [|done]. by rewrite exponent_no_unit.
  Qed.
  Lemma dimension_no_unit n : dimension no_unit (Single (Base no_unit)) n = 0%Z.
  Proof.
    unfold dimension. destruct (Nat.eqb_spec n no_unit) as [|E]; [done|]. cbn.
    rewrite (proj2 (Nat.eqb_neq no_unit n)) by congruence. done.
  Qed.
  Lemma is_no_unit_refl : is_no_unit no_unit (Single (Base no_unit)) = true.
  Proof. cbn. apply Nat.eqb_refl. Qed.

  Lemma product_spec a b c :
    proper_unit no_unit a -> proper_unit no_unit b -> multiply no_unit validator_of a b = Some c ->
    proper_unit no_unit c /\
    forall n, dimension no_unit c n = (dimension no_unit a n + dimension no_unit b n)%Z.
  Proof.
    intros Ha Hb. unfold multiply.
    destruct (unit_cases b Hb) as [-> |(Hnb & Hpb & Hrb & Hneb)].
    { rewrite is_no_unit_refl. intros [= <-]. split; [done|]. intros n. rewrite dimension_no_unit. lia. }
    rewrite Hnb. destruct (unit_cases a Ha) as [-> |(Hna & Hpa & Hra & Hnea)].
    { rewrite is_no_unit_refl. intros [= <-]. split; [done|]. intros n. rewrite dimension_no_unit. lia. }
    rewrite Hna. destruct (reduce_product_spec a b) as (r & Hpr & Hrr & He & Hnil & Hcons); try done.
    destruct (decide (r = [])) as [Er|Er].
    - destruct (Hnil Er) as [[_ ->]|[_ ->]]; [|done]. intros [= <-]. split; [by left|]. intros n.
      rewrite dimension_no_unit, (dimension_spec a n Hpa), (dimension_spec b n Hpb), <- He. by rewrite Er.
    - rewrite Hcons by done. intros E. destruct (to_composite_proper r c Hpr Hrr E) as [Hc <-]. split; [done|].
      intros n. rewrite (dimension_spec c n Hpr), (dimension_spec a n Hpa), (dimension_spec b n Hpb). apply He.
  Qed.

  Lemma dimension_unique a b :
    proper_unit no_unit a -> proper_unit no_unit b ->
    (forall n, dimension no_unit a n = dimension no_unit b n) -> a = b.
  Proof.
    assert (forall x, Forall (proper_factor no_unit) (factors x) -> reduced (factors x) -> factors x <> [] ->
      exists n, dimension no_unit x n <> 0%Z) as Hnz.
    { intros x Hp Hr Hne. destruct (factors x) as [|t ts] eqn:E; [done|]. exists (name t).
      rewrite dimension_spec by (by rewrite E). rewrite E. pose proof (reduced_head t ts Hr). intros Hz.
      rewrite Hz in *. lia. }
    intros Ha Hb He.
    destruct (unit_cases a Ha) as [-> |(Hna & Hpa & Hra & Hnea)], (unit_cases b Hb) as [-> |(Hnb & Hpb & Hrb & Hneb)].
    - done.
    - destruct (Hnz b) as [n Hn]; try done. rewrite <- He, dimension_no_unit in Hn. done.
    - destruct (Hnz a) as [n Hn]; try done. rewrite He, dimension_no_unit in Hn. done.
    - assert (factors a = factors b) as E.
      { apply reduced_unique; try done. intros n. by rewrite <- !dimension_spec. }
      destruct a as [t|ts], b as [u|us]; cbn in *.
      + by injection E as ->.
      + subst us. destruct Hb as (Hl & _). cbn in Hl. lia.
      + subst ts. destruct Ha as (Hl & _). cbn in Hl. lia.
      + by rewrite E.
  Qed.

  Lemma product_comm a b :
    proper_unit no_unit a -> proper_unit no_unit b ->
    multiply no_unit validator_of a b = multiply no_unit validator_of b a.
  Proof.
    intros Ha Hb. unfold multiply.
    destruct (unit_cases b Hb) as [-> |(Hnb & Hpb & Hrb & Hneb)];
      destruct (unit_cases a Ha) as [-> |(Hna & Hpa & Hra & Hnea)]; rewrite ?is_no_unit_refl; try done.
    - by rewrite Hna.
    - by rewrite Hnb.
    - rewrite Hna, Hnb.
      destruct (reduce_product_sorted a b) as (s & Hp & Hs & ->); try done.
      destruct (reduce_product_sorted b a) as (s' & Hp' & Hs' & ->); try done.
      f_equal. apply sorted_unique; try done.
      + intros t Ht. apply (proper_units_simple (factors a ++ factors b)); [by apply Forall_app|]. by rewrite <- Hp.
      + rewrite Hp, Hp'. by rewrite Permutation_app_comm.
  Qed.

  Lemma product_assoc a b c ab bc x y :
    proper_unit no_unit a -> proper_unit no_unit b -> proper_unit no_unit c ->
    multiply no_unit validator_of a b = Some ab -> multiply no_unit validator_of ab c = Some x ->
    multiply no_unit validator_of b c = Some bc -> multiply no_unit validator_of a bc = Some y -> x = y.
  Proof.
    intros Ha Hb Hc E1 E2 E3 E4.
    destruct (product_spec a b ab) as [H1 D1]; try done. destruct (product_spec ab c x) as [H2 D2]; try done.
    destruct (product_spec b c bc) as [H3 D3]; try done. destruct (product_spec a bc y) as [H4 D4]; try done.
    apply dimension_unique; try done. intros n. rewrite D2, D4, D1, D3. lia.
  Qed.

  (** ** Duals *)
  Lemma dual_factor t : proper_factor no_unit t ->
    proper_factor no_unit (dual_of_factor no_unit t) /\ name (dual_of_factor no_unit t) = name t /\
    power (dual_of_factor no_unit t) = (- power t)%Z /\ dual_of_factor no_unit (dual_of_factor no_unit t) = t.
  Proof.
    unfold dual_of_factor. destruct t as [n|[n| |]|[n|[n| |]|]]; cbn; try done; intros H.
    - rewrite (proj2 (Nat.eqb_neq n no_unit)) by done. cbn. done.
    - rewrite (proj2 (Nat.eqb_neq n no_unit)) by done. done.
  Qed.

  Lemma dual_factors l :
    Forall (proper_factor no_unit) l -> reduced l ->
    Forall (proper_factor no_unit) (dual_of_factor no_unit <$> l) /\ reduced (dual_of_factor no_unit <$> l) /\
    (forall n, exponent n (dual_of_factor no_unit <$> l) = - exponent n l)%Z /\
    dual_of_factor no_unit <$> (dual_of_factor no_unit <$> l) = l.
  Proof.
    intros Hp [Hs Hu]. rewrite Forall_forall in Hp. split; [|split; [split|split]].
    - rewrite Forall_forall. intros x Hx. apply elem_of_list_fmap in Hx as (t & -> & Ht). by apply dual_factor, Hp.
    - clear Hu. induction Hs as [|t l Hs IH Ht]; [constructor|]. cbn [fmap list_fmap]. constructor.
      + apply IH. intros; apply Hp. by right.
      + rewrite Forall_forall in *. intros x Hx. apply elem_of_list_fmap in Hx as (u & -> & Hu).
        destruct (dual_factor t) as (_ & -> & _); [apply Hp; left|].
        destruct (dual_factor u) as (_ & -> & _); [apply Hp; by right|]. by apply Ht.
    - intros x y Hx Hy. apply elem_of_list_fmap in Hx as (t & -> & Ht). apply elem_of_list_fmap in Hy as (u & -> & Hu').
      destruct (dual_factor t) as (_ & -> & _); [by apply Hp|]. destruct (dual_factor u) as (_ & -> & _); [by apply Hp|].
      intros E. by rewrite (Hu t u).
    - intros n. clear Hs Hu. induction l as [|t l IH]; [done|]. cbn.
      destruct (dual_factor t) as (_ & -> & -> & _); [apply Hp; left|].
      fold (fmap (M := list) (dual_of_factor no_unit) l).
      rewrite IH by (intros; apply Hp; by right). destruct (Nat.eqb _ _); lia.
    - rewrite <- list_fmap_compose. rewrite <- (list_fmap_id l) at 2. apply list_fmap_ext. intros i t Ht.
      cbn. apply dual_factor, Hp. by eapply elem_of_list_lookup_2.
  Qed.

  Lemma dual_no_unit : dual_of_unit no_unit (Single (Base no_unit)) = Single (Base no_unit).
  Proof. cbn. unfold dual_of_factor. cbn. by rewrite Nat.eqb_refl. Qed.
  Lemma factors_dual a : factors (dual_of_unit no_unit a) = dual_of_factor no_unit <$> factors a.
  Proof. by destruct a. Qed.

  Lemma dual_spec a : proper_unit no_unit a ->
    proper_unit no_unit (dual_of_unit no_unit a) /\
    (forall n, dimension no_unit (dual_of_unit no_unit a) n = - dimension no_unit a n)%Z /\
    dual_of_unit no_unit (dual_of_unit no_unit a) = a.
  Proof.
    intros Ha. destruct (unit_cases a Ha) as [-> |(Hna & Hpa & Hra & Hnea)].
    { rewrite !dual_no_unit. split; [by left|]. split; [|done]. intros n. by rewrite dimension_no_unit. }
    destruct (dual_factors (factors a) Hpa Hra) as (H1 & H2 & H3 & H4). split; [|split].
    - destruct a as [t|ts]; cbn [factors dual_of_unit proper_unit] in *.
      + right. cbn in H1. by inversion H1.
      + split; [rewrite fmap_length; apply Ha|done].
    - intros n. rewrite !dimension_spec by (rewrite ?factors_dual; done). rewrite factors_dual. apply H3.
    - destruct a as [t|ts]; cbn [factors dual_of_unit] in *; [|by rewrite H4]. cbn in H4. by injection H4 as ->.
  Qed.

  Lemma dual_is_no_unit a : proper_unit no_unit a ->
    is_no_unit no_unit (dual_of_unit no_unit a) = is_no_unit no_unit a.
  Proof.
    intros Ha. destruct (unit_cases a Ha) as [-> |(Hna & Hpa & Hra & Hnea)]; [by rewrite dual_no_unit|].
    rewrite Hna. destruct a as [t|ts]; [|done]. cbn in Hpa |- *. inversion Hpa as [|? ? Hp _]; subst.
    apply not_true_iff_false. rewrite same_spec. intros E. destruct (dual_factor t Hp) as (H & _). rewrite E in H. done.
  Qed.

  Lemma divide_spec a b : proper_unit no_unit a -> proper_unit no_unit b ->
    divide no_unit validator_of a b = multiply no_unit validator_of a (dual_of_unit no_unit b).
  Proof.
    intros Ha Hb. unfold divide, multiply. rewrite dual_is_no_unit by done. done.
  Qed.

  (** ** When the product is well-formed *)
  Definition reducible_validators : Prop := forall n, validator_of n <> Other.

  Lemma reduced_validator_some vs : Forall (fun v => v <> Other) vs -> vs <> [] ->
    exists v, reduced_validator vs = Some v /\ v <> Other.
  Proof.
    induction vs as [|v vs IH]; intros H Hne; [done|]. inversion H as [|? ? Hv Hvs]; subst.
    destruct vs as [|v' vs]; [by exists v|]. destruct (IH Hvs ltac:(done)) as (w & E & Hw).
    change (reduced_validator (v :: v' :: vs)) with (r ← reduced_validator (v' :: vs); reduce_two v r).
    rewrite E. cbn [mbind option_bind]. destruct v, w; try done; by eexists.
  Qed.

  (** Half lines together give a half line; together with one that allows every value, every value is
      allowed. *)
  Lemma reduced_validator_values vs : Forall (fun v => v <> Other) vs -> vs <> [] ->
    (reduced_validator vs = Some Identity <-> Identity ∈ vs) /\
    (reduced_validator vs = Some HalfLine <-> Forall (fun v => v = HalfLine) vs).
  Proof.
    induction vs as [|v vs IH]; intros H Hne; [done|]. inversion H as [|? ? Hv Hvs]; subst.
    rewrite elem_of_cons, Forall_cons. destruct vs as [|v' vs].
    { rewrite elem_of_nil. cbn [reduced_validator]. destruct v; [| |done]; naive_solver. }
    change (reduced_validator (v :: v' :: vs)) with (r ← reduced_validator (v' :: vs); reduce_two v r).
    destruct (IH Hvs ltac:(done)) as [H1 H2]. rewrite <-H1, <-H2.
    destruct (reduced_validator_some (v' :: vs) Hvs ltac:(done)) as (w & -> & Hw). cbn [mbind option_bind].
    destruct v, w; cbn [reduce_two]; naive_solver.
  Qed.

  Lemma to_composite_defined r : reducible_validators -> Forall (proper_factor no_unit) r -> r <> [] ->
    exists c, to_composite_unit validator_of r = Some c.
  Proof.
    intros Hv Hp Hne. destruct r as [|t [|u r]]; [done|by eexists|]. unfold to_composite_unit.
    destruct (reduced_validator_some (validator_of_factor validator_of <$> t :: u :: r)) as (v & E & _); [|done|].
    - rewrite Forall_fmap. eapply Forall_impl; [exact Hp|]. intros x Hx. cbn.
      by destruct x as [n|[n| |]|[n|[n| |]|]]; cbn in *.
    - rewrite E. by eexists.
  Qed.

  Lemma product_defined a b :
    reducible_validators -> proper_unit no_unit a -> proper_unit no_unit b ->
    multiply no_unit validator_of a b = None <->
    (forall n, (dimension no_unit a n + dimension no_unit b n = 0)%Z) /\
    exists t u, t ∈ factors a ++ factors b /\ u ∈ factors a ++ factors b /\
      name t <> no_unit /\ name u <> no_unit /\ name t <> name u.
  Proof.
    intros Hv Ha Hb. unfold multiply.
    assert (forall x y, proper_unit no_unit x -> proper_unit no_unit y -> is_no_unit no_unit y = true ->
      (forall n, (dimension no_unit x n + dimension no_unit y n = 0)%Z) -> x = Single (Base no_unit)) as Hz.
    { intros x y Hx Hy Hny Hd. apply dimension_unique; [done|by left|]. intros n.
      destruct (unit_cases y Hy) as [-> |(? & _)]; [|congruence]. specialize (Hd n). rewrite dimension_no_unit in *. lia. }
    destruct (is_no_unit no_unit b) eqn:Enb.
    { split; [done|]. intros [Hd (t & u & Ht & Hu & Hnt & Hnu & _)]. exfalso.
      rewrite (Hz a b) in Ht by done. destruct (unit_cases b Hb) as [-> |(? & _)]; [|congruence].
      cbn in Ht. apply Hnt. clear -Ht. set_unfold in Ht. destruct Ht as [-> |[-> |[]]]; done. }
    destruct (is_no_unit no_unit a) eqn:Ena.
    { split; [done|]. intros [Hd (t & u & Ht & Hu & Hnt & Hnu & _)]. exfalso.
      rewrite (Hz b a) in Ht; try done; [|intros n; rewrite Z.add_comm; apply Hd].
      destruct (unit_cases a Ha) as [-> |(? & _)]; [|congruence].
      cbn in Ht. apply Hnt. clear -Ht. set_unfold in Ht. destruct Ht as [-> |[-> |[]]]; done. }
    destruct (unit_cases b Hb) as [-> |(_ & Hpb & Hrb & Hneb)]; [by rewrite is_no_unit_refl in Enb|].
    destruct (unit_cases a Ha) as [-> |(_ & Hpa & Hra & Hnea)]; [by rewrite is_no_unit_refl in Ena|].
    destruct (reduce_product_spec a b) as (r & Hpr & Hrr & He & Hnil & Hcons); try done.
    assert (Forall (proper_factor no_unit) (factors a ++ factors b)) as Hpab by (by apply Forall_app).
    rewrite Forall_forall in Hpab.
    destruct (decide (r = [])) as [Er|Er].
    - assert (forall n, (dimension no_unit a n + dimension no_unit b n = 0)%Z) as Hd.
      { intros n. rewrite (dimension_spec a n Hpa), (dimension_spec b n Hpb), <- He. by rewrite Er. }
      destruct (Hnil Er) as [[H1 ->]|[H1 ->]].
      + split; [done|]. intros [_ (t & u & Ht & Hu & _ & _ & Hne)]. exfalso. apply Hne. by apply H1.
      + split; [|done]. intros _. split; [done|]. destruct (not_one_name _ H1) as (t & u & Ht & Hu & Hne).
        exists t, u. repeat (split; [done|]). split; [by apply proper_name, Hpab|]. split; [by apply proper_name, Hpab|done].
    - rewrite Hcons by done. destruct (to_composite_defined r Hv Hpr Er) as (c & ->). split; [done|].
      intros [Hd _]. exfalso. apply Er. destruct r as [|t r]; [done|]. exfalso.
      pose proof (reduced_head t r Hrr) as H. rewrite He, <- (dimension_spec a _ Hpa), <- (dimension_spec b _ Hpb), Hd in H. lia.
  Qed.

  Lemma ratio_spec a :
    proper_unit no_unit a ->
    ((forall t u, t ∈ factors a -> u ∈ factors a -> name t = name u) ->
       divide no_unit validator_of a a = Some (Single (Base no_unit))) /\
    (~ (forall t u, t ∈ factors a -> u ∈ factors a -> name t = name u) -> divide no_unit validator_of a a = None).
  Proof.
    intros Ha. rewrite divide_spec by done. unfold multiply. rewrite dual_is_no_unit by done.
    destruct (unit_cases a Ha) as [-> |(Hna & Hpa & Hra & Hnea)].
    { rewrite is_no_unit_refl. split; [done|]. intros H. exfalso. apply H. cbn. intros t u.
      rewrite !elem_of_list_singleton. congruence. }
    rewrite Hna. destruct (dual_factors (factors a) Hpa Hra) as (H1 & H2 & H3 & _).
    destruct (reduce_product_spec a (dual_of_unit no_unit a)) as (r & Hpr & Hrr & He & Hnil & Hcons); try done;
      try (by rewrite factors_dual).
    assert (r = []) as Er.
    { destruct r as [|t r]; [done|]. exfalso. pose proof (reduced_head t r Hrr) as H.
      rewrite He, factors_dual, H3 in H. lia. }
    assert (one_name (factors a ++ factors (dual_of_unit no_unit a)) <-> one_name (factors a)) as Hone.
    { rewrite factors_dual. split.
      - intros H t u Ht Hu. apply H; apply elem_of_app; by left.
      - intros H. assert (forall t, t ∈ factors a ++ (dual_of_factor no_unit <$> factors a) ->
          exists t', t' ∈ factors a /\ name t = name t') as Hn.
        { intros t Ht. apply elem_of_app in Ht as [Ht|Ht]; [by exists t|].
          apply elem_of_list_fmap in Ht as (t' & -> & Ht'). exists t'. split; [done|].
          rewrite Forall_forall in Hpa. by apply dual_factor, Hpa. }
        intros t u Ht Hu. destruct (Hn t Ht) as (t' & Ht' & ->). destruct (Hn u Hu) as (u' & Hu' & ->). by apply H. }
    destruct (Hnil Er) as [[Ho ->]|[Ho ->]].
    - split; [done|]. intros H. exfalso. apply H. by apply Hone in Ho.
    - split; [|done]. intros H. exfalso. by apply Ho, Hone.
  Qed.
End units.
