From stdpp Require Import list sets sorting.
From Coq Require Import ZArith.
From Verif.Base Require Import Outcome Order ListLemmas.
From Verif.Meta Require Import Spec Proofs.
From Verif.Meta Require Model.
From Verif.Products Require Import Model Spec Proofs ProofsUnits.

(** ** Merging lists which are not in order *)
Section merging.
  Context {A : Type} (comp : A -> A -> bool).
  Implicit Types ts us : list A.

  Lemma lower_bound_get_total fuel ts t lo hi :
    lo <= hi -> hi <= length ts -> hi - lo < fuel ->
    exists pos, Meta.Model.lower_bound_get comp fuel ts t lo hi = Some pos /\ lo <= pos <= hi.
  Proof.
    revert lo hi. induction fuel as [|fuel IH]; intros lo hi H1 H2 H3; [lia|]. cbn [Meta.Model.lower_bound_get].
    case_decide as E; [exists lo; split; [done|lia]|].
    destruct (lookup_lt_is_Some_2 ts ((lo + hi) / 2)) as [x Hx]; [lia|]. rewrite Hx.
    destruct (comp x t).
    - destruct (IH ((lo + hi) / 2 + 1) hi) as (pos & Hp & Hr); [lia|lia|lia|]. exists pos. split; [done|lia].
    - destruct (IH lo ((lo + hi) / 2)) as (pos & Hp & Hr); [lia|lia|lia|]. exists pos. split; [done|lia].
  Qed.

  Lemma merge_one_total t us i : i <= length us ->
    exists us' pos, Meta.Model.merge_one comp t us i = Some (us', pos) /\ us' ≡ₚ t :: us /\ pos <= length us.
  Proof.
    intros Hi. unfold Meta.Model.merge_one. rewrite drop_types_spec. cbn [mbind option_bind].
    destruct (lower_bound_get_total (S (length (drop i us))) (drop i us) t 0 (length (drop i us))) as (lb & E & Hlb);
      [lia|lia|lia|].
    unfold Meta.Model.lower_bound. rewrite E. cbn [mbind option_bind]. rewrite drop_length in Hlb.
    rewrite insert_type_spec, decide_True by lia. cbn [mbind option_bind].
    eexists _, _. split; [done|]. split; [|lia]. rewrite <- Permutation_middle. by rewrite take_drop.
  Qed.

  Lemma merge_from_position_total ts us i : i <= length us ->
    exists l, Meta.Model.merge_from_position comp ts us i = Some l /\ l ≡ₚ ts ++ us.
  Proof.
    revert us i. induction ts as [|t ts IH]; intros us i Hi; [by exists us|].
    destruct ts as [|t' ts]; cbn [Meta.Model.merge_from_position].
    - destruct (merge_one_total t us i Hi) as (us' & pos & -> & Hp & _). by exists us'.
    - destruct (merge_one_total t us 0 ltac:(lia)) as (us' & pos & -> & Hp & Hpos). cbn [mbind option_bind fst snd].
      destruct (IH us' (pos + 1)) as (l & E & Hl); [rewrite Hp; cbn; lia|]. exists l. split; [exact E|].
      rewrite Hl, Hp. by rewrite <- Permutation_middle.
  Qed.

  Lemma merge_types_total ts us : exists l, Meta.Model.merge_types comp ts us = Some l /\ l ≡ₚ ts ++ us.
  Proof.
    unfold Meta.Model.merge_types. destruct us as [|u us]; [exists ts; split; [by destruct ts as [|? [|? ?]]|by rewrite app_nil_r]|].
    destruct ts as [|t [|t' ts]]; [by eexists| |by apply merge_from_position_total; cbn; lia].
    destruct us as [|u' us]; [|by apply merge_from_position_total; cbn; lia].
    destruct (comp t u); eexists; (split; [done|]); [done|apply Permutation_swap].
  Qed.
End merging.

Lemma displaced_spec n l : at_name n displacement l = true <-> displaced n l.
Proof. apply at_name_true. Qed.

Section spaces.
  Context (ev eh : nat) (vec half : nat -> bool).
  Local Notation free := (free ev vec).
  Local Notation half_line := (half_line eh half).
  Local Notation euclidean := (euclidean ev eh).
  Local Notation prunable := (prunable ev eh).

  Lemma free_kind n l :
    (exists t, t ∈ l /\ name t = n) -> (forall t, t ∈ l -> simple t = true) ->
    free (kind n l) = true <-> exists t, t ∈ l /\ name t = n /\ free t = true.
  Proof.
    intros (t0 & Ht0 & Hn0) Hs. destruct (at_name n displacement l) eqn:E.
    - assert (free (kind n l) = true) as -> by (unfold kind; rewrite E; by repeat case_match).
      split; [|done]. intros _. apply at_name_true in E as (t & Ht & Hn & Hd). exists t. split; [done|]. split; [done|].
      specialize (Hs t Ht). by destruct t as [?|[?| |]|[?|[?| |]|]].
    - assert (free (kind n l) = free (Base n)) as -> by (unfold kind; rewrite E; by repeat case_match).
      assert (forall t, t ∈ l -> name t = n -> free t = free (Base n)) as Hf.
      { intros t Ht Hn. assert (displacement t = false) as Hd.
        { apply not_true_iff_false. intros Hd. revert E. apply not_false_iff_true, at_name_true. by exists t. }
        specialize (Hs t Ht). destruct t as [?|[?| |]|[?|[?| |]|]]; try done; cbn in Hn; by subst. }
      split.
      + intros H. exists t0. split; [done|]. split; [done|]. by rewrite Hf.
      + intros (t & Ht & Hn & H). by rewrite <- (Hf t).
  Qed.

  Lemma free_out n l : free (out n l) = free (kind n l).
  Proof. unfold out, kind. by destruct (at_name _ displacement l), (0 <=? _)%Z, (at_name _ _ _). Qed.

  Definition keep_unpacked (cs : counters) : bool :=
    existsb (fun c => free c.1 && negb (prunable c)) cs ||
    (forallb (fun c => negb (free c.1) || negb (prunable c)) cs &&
     (existsb (fun c => half_line c.1 && negb (prunable c)) cs ||
      forallb (fun c => negb (half_line c.1) || negb (prunable c)) cs)).

  Lemma out_clash s n m :
    harmonious s -> exponent n s <> 0%Z -> exponent m s <> 0%Z -> clash (out n s) (out m s) = false.
  Proof.
    intros (_ & _ & H) Hn Hm. unfold clash. rewrite !out_name.
    destruct (Nat.eqb_spec n m) as [|E]; [done|]. cbn [negb andb].
    pose proof (displaced_spec n s) as Dn. pose proof (displaced_spec m s) as Dm.
    pose proof (H n m E) as H1. pose proof (H m n ltac:(congruence)) as H2. rewrite <- Dn, <- Dm in H1, H2.
    unfold out. destruct (Z.leb_spec 0 (exponent n s)), (Z.leb_spec 0 (exponent m s)),
      (at_name n displacement s), (at_name m displacement s); try done; exfalso.
    - destruct (H2 eq_refl) as [_ HH]; [lia|]. apply HH; [lia|done].
    - destruct (H1 eq_refl) as [_ HH]; [lia|]. apply HH; [lia|done].
    - destruct (H1 eq_refl) as [HH _]; [lia|]. by specialize (HH ltac:(lia)).
    - destruct (H2 eq_refl) as [HH _]; [lia|]. by specialize (HH ltac:(lia)).
  Qed.

  Lemma clash_base t n : clash t (Base n) = false /\ clash (Base n) t = false.
  Proof. unfold clash. split; [by destruct t as [?|[?| |]|[?|[?| |]|]]; cbn; rewrite andb_false_r|]. by rewrite andb_false_r. Qed.

  Lemma finish_spaces_spec s :
    harmonious s -> sorted_by key_less s -> s <> [] ->
    exists acc r merged root,
      counted s acc /\ reduced r /\
      (forall x, x ∈ r -> exists c, c ∈ acc /\ prunable c = false /\ x = out (name c.1) s /\
         exponent (name c.1) s <> 0%Z) /\
      (forall c, c ∈ acc -> prunable c = false -> exponent (name c.1) r = exponent (name c.1) s) /\
      (forall n, (forall c, c ∈ acc -> prunable c = false -> name c.1 <> n) -> exponent n r = 0%Z) /\
      root = (if existsb (fun c => free c.1) acc then Base ev else Base eh) /\
      merged ≡ₚ root :: r /\
      finish_spaces ev eh vec half s = to_composite_space (if keep_unpacked acc then r else merged).
  Proof.
    intros Hh Hsort Hne. destruct Hh as (Hsimple & Hclash & Hrest).
    destruct (count_and_combine_spec s Hsimple Hsort) as (acc & Eacc & Hc).
    destruct (reverse_unpack_spec s acc prunable Hc) as (r & Er & Hred & Hin & Hexp & Hno).
    set (root := if existsb (fun c : ty * Z => free c.1) acc then Base ev else Base eh).
    assert (agree comparator key_less (r ++ [root])) as Hag.
    { assert (forall x, x ∈ r ++ [root] -> (exists n, x = out n s /\ exponent n s <> 0%Z) \/ exists n, x = Base n) as Hx.
      { intros x Hx. apply elem_of_app in Hx as [Hx|Hx].
        - left. destruct (Hin x) as (c & _ & _ & -> & Hz); [by apply elem_of_reverse|]. by exists (name c.1).
        - right. apply elem_of_list_singleton in Hx as ->. unfold root. destruct (existsb _ _); by eexists. }
      assert (forall x, x ∈ r ++ [root] -> simple x = true) as Hs.
      { intros x Hx'. destruct (Hx x Hx') as [(n & -> & _)|(n & ->)]; [apply out_simple|done]. }
      intros x y Hx' Hy'. apply comparator_spec; [by apply Hs..|].
      destruct (Hx x Hx') as [(n & -> & Hn)|(n & ->)]; [|apply clash_base].
      destruct (Hx y Hy') as [(m & -> & Hm)|(m & ->)]; [|apply clash_base].
      by apply out_clash. }
    destruct (merge_types_total key_less r [root]) as (merged & Em & Hm).
    rewrite <- (merge_types_agree comparator key_less r [root] Hag) in Em.
    exists acc, (reverse r), (reverse merged), root.
    split; [done|]. split; [done|]. split; [done|]. split; [done|]. split; [done|]. split; [done|]. split.
    { rewrite !reverse_Permutation, Hm. by rewrite Permutation_app_comm. }
    assert (acc <> []) as Hane.
    { destruct s as [|t s']; [done|]. destruct (counted_all _ _ Hc t ltac:(left)) as (c & Hca & _).
      intros ->. by apply elem_of_nil in Hca. }
    assert ((fs ← Meta.Model.filter_by_trait prunable acc; unpack fs) = Some r) as Er'.
    { rewrite filter_by_trait_spec. cbn [mbind option_bind]. rewrite <- Er. by f_equal. }
    rewrite filter_by_trait_spec in Er'. cbn [mbind option_bind] in Er'.
    unfold finish_spaces. rewrite Eacc. cbn [mbind option_bind].
    assert (reduce_spaces ev eh vec half acc = Some (if keep_unpacked acc then r else merged)) as ->.
    { unfold reduce_spaces. destruct acc as [|c0 acc]; [done|]. rewrite filter_by_trait_spec. cbn [mbind option_bind].
      rewrite Er'. cbn [mbind option_bind]. fold root. rewrite Em. cbn [mbind option_bind]. done. }
    cbn [mbind option_bind]. rewrite reverse_types_spec. by destruct (keep_unpacked acc).
  Qed.

  Lemma space_product_sorted a b :
    harmonious (factors a ++ factors b) -> reduced (factors a) -> reduced (factors b) ->
    exists s, s ≡ₚ factors a ++ factors b /\ sorted_by key_less s /\
      space_product ev eh vec half a b = finish_spaces ev eh vec half s.
  Proof.
    intros (Hs & Hcl & _) Hra Hrb.
    assert (forall t, t ∈ factors a -> simple t = true) as Ha by (intros; apply Hs; set_solver).
    assert (forall t, t ∈ factors b -> simple t = true) as Hb by (intros; apply Hs; set_solver).
    pose proof (reduced_sorted _ Ha Hra) as Hsa. pose proof (reduced_sorted _ Hb Hrb) as Hsb.
    assert (agree comparator key_less (factors a ++ factors b)) as Hag.
    { intros x y Hx Hy. apply comparator_spec; [by apply Hs..|by apply Hcl]. }
    assert (agree comparator key_less (factors b ++ factors a)) as Hag'.
    { intros x y Hx Hy. apply Hag; set_solver. }
    destruct a as [t|ts], b as [u|us]; cbn [factors] in *; unfold space_product.
    - destruct (stable_sort_ok comparator key_less key_less_sw [t; u] Hag) as (l & -> & Hp & Hl). by exists l.
    - destruct (merge_types_ok comparator key_less key_less_sw us [t] Hag' Hsb Hsa) as (l & -> & Hp & Hl).
      exists l. split; [|done]. rewrite Hp. by rewrite Permutation_app_comm.
    - destruct (merge_types_ok comparator key_less key_less_sw ts [u] Hag Hsa Hsb) as (l & -> & Hp & Hl). by exists l.
    - destruct (merge_types_ok comparator key_less key_less_sw ts us Hag Hsa Hsb) as (l & -> & Hp & Hl). by exists l.
  Qed.

  Lemma displaced_perm n l k : l ≡ₚ k -> displaced n l -> displaced n k.
  Proof. intros Hp (t & Ht & H). exists t. by rewrite <- Hp. Qed.
  Lemma harmonious_perm l k : l ≡ₚ k -> harmonious l -> harmonious k.
  Proof.
    intros Hp (H1 & H2 & H3). split; [|split].
    - intros t Ht. apply H1. by rewrite Hp.
    - intros a b Ha Hb. apply H2; by rewrite Hp.
    - intros n m Hnm Hd He. rewrite <- (exponent_perm n l k Hp) in He. rewrite <- (exponent_perm m l k Hp).
      destruct (H3 n m Hnm) as [H4 H5]; [by eapply displaced_perm; [symmetry|]|done|].
      split; [intros; eapply displaced_perm; eauto|]. intros H Hd'. apply (H5 H). by eapply displaced_perm; [symmetry|].
  Qed.

  Lemma to_composite_space_factors l c : to_composite_space l = Some c -> factors c = l.
  Proof. destruct l as [|t [|u l]]; cbn; [done|by intros [= <-]..]. Qed.
  Lemma to_composite_space_defined l : l <> [] -> exists c, to_composite_space l = Some c.
  Proof. destruct l as [|t [|u l]]; cbn; [done|by eexists..]. Qed.

  Lemma space_product_comm a b :
    harmonious (factors a ++ factors b) -> reduced (factors a) -> reduced (factors b) ->
    space_product ev eh vec half a b = space_product ev eh vec half b a.
  Proof.
    intros Hh Ha Hb. destruct (space_product_sorted a b) as (s & Hp & Hs & ->); try done.
    destruct (space_product_sorted b a) as (s' & Hp' & Hs' & ->); try done.
    { by eapply harmonious_perm; [apply Permutation_app_comm|]. }
    f_equal. apply sorted_unique; try done.
    - intros t Ht. apply Hh. by rewrite <- Hp.
    - rewrite Hp, Hp'. by rewrite Permutation_app_comm.
  Qed.

  (** Names other than those of Euclidean spaces are dropped if their exponents cancel only. *)
  Lemma prunable_spec s acc c :
    counted s acc -> c ∈ acc -> name c.1 <> ev -> name c.1 <> eh ->
    prunable c = (exponent (name c.1) s =? 0)%Z.
  Proof.
    intros Hc Hin H1 H2. unfold Model.prunable. destruct (counted_entry _ _ Hc c Hin) as [Hk ->].
    assert (euclidean c.1 = false) as ->.
    { unfold Model.euclidean. pose proof (kind_simple (name c.1) s) as Hs. rewrite <- Hk in Hs.
      destruct c.1 as [n|[n| |]|[n|[n| |]|]]; try done; cbn in *;
        by rewrite (proj2 (Nat.eqb_neq n ev)), (proj2 (Nat.eqb_neq n eh)). }
    rewrite orb_false_r. destruct (power_cases c.1) as [-> | ->]; lia.
  Qed.

  Lemma existsb_elem {A} (p : A -> bool) l : existsb p l = true <-> exists x, x ∈ l /\ p x = true.
  Proof. rewrite existsb_exists. by setoid_rewrite elem_of_list_In. Qed.
  Lemma forallb_elem {A} (p : A -> bool) l : forallb p l = true <-> forall x, x ∈ l -> p x = true.
  Proof. rewrite forallb_forall. by setoid_rewrite elem_of_list_In. Qed.

  Lemma kept_exponents s acc r :
    counted s acc ->
    (forall c, c ∈ acc -> prunable c = false -> exponent (name c.1) r = exponent (name c.1) s) ->
    (forall n, (forall c, c ∈ acc -> prunable c = false -> name c.1 <> n) -> exponent n r = 0%Z) ->
    forall n, n <> ev -> n <> eh -> exponent n r = exponent n s.
  Proof.
    intros Hc Hexp Hno n H1 H2. destruct (decide (Exists (fun c : ty * Z => name c.1 = n) acc)) as [H|H].
    - apply Exists_exists in H as (c & Hca & <-). destruct (prunable c) eqn:Epc; [|by apply Hexp].
      pose proof Epc as Epc'. rewrite (prunable_spec s acc) in Epc' by done.
      rewrite Hno; [lia|]. intros c' Hc' Hd' Heq. rewrite (prunable_spec s acc) in Hd' by (rewrite ?Heq; done).
      rewrite Heq in Hd'. congruence.
    - rewrite Hno.
      + symmetry. apply exponent_zero. intros t Ht Hn. destruct (counted_all _ _ Hc t Ht) as (c & Hca & Hcn).
        apply H. apply Exists_exists. exists c. split; [done|congruence].
      + intros c Hca _ Hn. apply H. apply Exists_exists. by exists c.
  Qed.

  Lemma free_counted s acc :
    counted s acc -> (forall t, t ∈ s -> simple t = true) ->
    existsb (fun c => free c.1) acc = true <-> exists t, t ∈ s /\ free t = true.
  Proof.
    intros Hc Hs. rewrite existsb_elem. split.
    - intros (c & Hca & Hf). destruct (counted_entry _ _ Hc c Hca) as [Hk _].
      rewrite Hk in Hf. apply free_kind in Hf as (t & Ht & _ & Hf); [by exists t| |done].
      by apply (counted_only _ _ Hc).
    - intros (t & Ht & Hf). destruct (counted_all _ _ Hc t Ht) as (c & Hca & Hn). exists c. split; [done|].
      destruct (counted_entry _ _ Hc c Hca) as [-> _]. apply free_kind; [by apply (counted_only _ _ Hc)|done|].
      exists t. by rewrite Hn.
  Qed.

  Lemma space_product_spec a b c :
    distinct_spaces ev eh vec half ->
    harmonious (factors a ++ factors b) -> reduced (factors a) -> reduced (factors b) ->
    space_product ev eh vec half a b = Some c ->
    (forall n, n <> ev -> n <> eh -> exponent n (factors c) = exponent n (factors a) + exponent n (factors b))%Z /\
    (vector_space ev vec c <-> vector_space ev vec a \/ vector_space ev vec b).
  Proof.
    intros (Hd1 & Hd2 & Hd3 & Hd4) Hh Ha Hb.
    destruct (space_product_sorted a b) as (s & Hp & Hs & ->); try done.
    assert (harmonious s) as Hhs by (by eapply harmonious_perm; [symmetry; exact Hp|]).
    destruct (decide (s = [])) as [-> |Hne]; [done|].
    destruct (finish_spaces_spec s) as (acc & r & merged & root & Hc & Hred & Hin & Hexp & Hno & Hroot & Hm & ->); try done.
    intros E. apply to_composite_space_factors in E. pose proof (proj1 Hhs) as Hsimple.
    pose proof (kept_exponents s acc r Hc Hexp Hno) as Hr.
    split.
    - intros n H1 H2. rewrite <- exponent_app, <- (exponent_perm n s _ Hp), E, <- (Hr n H1 H2).
      destruct (keep_unpacked acc); [done|]. rewrite (exponent_perm n _ _ Hm). cbn.
      assert (name root <> n) as Hrn by (rewrite Hroot; destruct (existsb _ _); cbn; congruence).
      by rewrite (proj2 (Nat.eqb_neq _ _) Hrn).
    - assert ((exists t, t ∈ s /\ free t = true) <-> vector_space ev vec a \/ vector_space ev vec b) as <-.
      { unfold vector_space. setoid_rewrite Hp. setoid_rewrite elem_of_app. split.
        - intros (t & [Ht|Ht] & Hf); [left|right]; by exists t.
        - intros [(t & Ht & Hf)|(t & Ht & Hf)]; exists t; auto. }
      assert (forall x, x ∈ r -> free x = true -> exists t, t ∈ s /\ free t = true) as Hfr.
      { intros x Hx Hf. destruct (Hin x Hx) as (c0 & Hc0 & _ & -> & _). rewrite free_out in Hf.
        apply free_kind in Hf as (t & Ht & _ & Hf); [by exists t| |done]. by apply (counted_only _ _ Hc). }
      unfold vector_space. rewrite E. pose proof (free_counted s acc Hc Hsimple) as Hfc.
      destruct (keep_unpacked acc) eqn:Ek.
      + split.
        * intros (x & Hx & Hf). by apply (Hfr x).
        * intros Hf. apply Hfc in Hf. apply existsb_elem in Hf as (c0 & Hc0 & Hf0).
          unfold keep_unpacked in Ek. apply orb_true_iff in Ek as [Ek|Ek].
          -- apply existsb_elem in Ek as (c1 & Hc1 & Hf1). apply andb_true_iff in Hf1 as [Hf1 Hpr].
             apply negb_true_iff in Hpr. exists (out (name c1.1) s). rewrite free_out.
             destruct (counted_entry _ _ Hc c1 Hc1) as [Hk Hi]. rewrite <- Hk. split; [|done].
             assert (exponent (name c1.1) r <> 0%Z) as Hz.
             { rewrite (Hexp c1 Hc1 Hpr). intros Hz. rewrite Hz, Z.mul_0_r in Hi.
               unfold Model.prunable in Hpr. rewrite Hi in Hpr. done. }
             destruct (decide (Exists (fun x => name x = name c1.1) r)) as [He|He].
             ++ apply Exists_exists in He as (x & Hx & Hn). destruct (Hin x Hx) as (c2 & _ & _ & Ex & _).
                rewrite Ex, out_name in Hn. rewrite <- Hn. by rewrite <- Ex.
             ++ exfalso. apply Hz. apply exponent_zero. intros t Ht Hn. apply He. apply Exists_exists. by exists t.
          -- apply andb_true_iff in Ek as [Ek _]. rewrite forallb_elem in Ek. specialize (Ek c0 Hc0).
             rewrite Hf0 in Ek. cbn in Ek. apply negb_true_iff in Ek.
             exists (out (name c0.1) s). rewrite free_out.
             destruct (counted_entry _ _ Hc c0 Hc0) as [Hk Hi]. rewrite <- Hk. split; [|done].
             assert (exponent (name c0.1) r <> 0%Z) as Hz.
             { rewrite (Hexp c0 Hc0 Ek). intros Hz. rewrite Hz, Z.mul_0_r in Hi.
               unfold Model.prunable in Ek. rewrite Hi in Ek. done. }
             destruct (decide (Exists (fun x => name x = name c0.1) r)) as [He|He].
             ++ apply Exists_exists in He as (x & Hx & Hn). destruct (Hin x Hx) as (c2 & _ & _ & Ex & _).
                rewrite Ex, out_name in Hn. rewrite <- Hn. by rewrite <- Ex.
             ++ exfalso. apply Hz. apply exponent_zero. intros t Ht Hn. apply He. apply Exists_exists. by exists t.
      + setoid_rewrite Hm. split.
        * intros (x & Hx & Hf). apply elem_of_cons in Hx as [-> |Hx]; [|by apply (Hfr x)].
          apply Hfc. rewrite Hroot in Hf. destruct (existsb _ _); [done|]. cbn in Hf.
          rewrite Hd2, orb_false_r in Hf. apply Nat.eqb_eq in Hf. congruence.
        * intros Hf. apply Hfc in Hf. exists root. split; [left|]. rewrite Hroot, Hf. cbn. by rewrite Nat.eqb_refl.
  Qed.

  (** Well-formed if all spaces are vector spaces, displacements or half lines. *)
  Lemma space_product_defined a b :
    harmonious (factors a ++ factors b) -> reduced (factors a) -> reduced (factors b) -> factors a <> [] ->
    (forall t, t ∈ factors a ++ factors b -> free t = true \/ half_line t = true) ->
    exists c, space_product ev eh vec half a b = Some c.
  Proof.
    intros Hh Ha Hb Hnea Hall.
    destruct (space_product_sorted a b) as (s & Hp & Hs & ->); try done.
    assert (harmonious s) as Hhs by (by eapply harmonious_perm; [symmetry; exact Hp|]).
    assert (s <> []) as Hne.
    { intros ->. apply Permutation_nil in Hp. by destruct (factors a). }
    destruct (finish_spaces_spec s) as (acc & r & merged & root & Hc & Hred & Hin & Hexp & Hno & Hroot & Hm & ->); try done.
    apply to_composite_space_defined. destruct (keep_unpacked acc) eqn:Ek.
    2: { intros ->. by apply Permutation_nil_cons in Hm. }
    intros ->.
    assert (forall c, c ∈ acc -> prunable c = true) as Hpr.
    { intros c Hca. apply not_false_iff_true. intros Hpf. specialize (Hexp c Hca Hpf). cbn in Hexp.
      destruct (counted_entry _ _ Hc c Hca) as [_ Hi]. rewrite <- Hexp, Z.mul_0_r in Hi.
      unfold Model.prunable in Hpf. rewrite Hi in Hpf. done. }
    assert (forall c, c ∈ acc -> free c.1 = true \/ half_line c.1 = true) as Hfh.
    { intros c Hca. destruct (counted_entry _ _ Hc c Hca) as [Hk _]. destruct (counted_only _ _ Hc c Hca) as (t & Ht & Hn).
      destruct (at_name (name c.1) displacement s) eqn:E.
      - left. rewrite Hk. unfold kind. rewrite E. by repeat case_match.
      - assert (displacement t = false) as Hd.
        { apply not_true_iff_false. intros Hd. revert E. apply not_false_iff_true, at_name_true. by exists t. }
        destruct (Hall t) as [H|H]; [by rewrite <- Hp|left|right].
        + rewrite Hk. apply free_kind; [by exists t|apply Hhs|]. by exists t.
        + rewrite Hk. unfold kind. rewrite E. pose proof (proj1 Hhs t Ht) as Hst.
          destruct t as [?|[?| |]|[?|[?| |]|]]; try done; cbn in Hn, H; subst; by repeat case_match. }
    destruct acc as [|c acc].
    { destruct s as [|t s']; [done|]. destruct (counted_all _ _ Hc t ltac:(left)) as (c & Hca & _). by apply elem_of_nil in Hca. }
    unfold keep_unpacked in Ek. apply orb_true_iff in Ek as [Ek|Ek].
    - apply existsb_elem in Ek as (c1 & Hc1 & H). rewrite (Hpr c1 Hc1), andb_false_r in H. done.
    - apply andb_true_iff in Ek as [E1 E2]. rewrite forallb_elem in E1.
      assert (forall c, c ∈ c :: acc -> True) as _ by done.
      assert (free c.1 = false) as Hf.
      { specialize (E1 c ltac:(left)). rewrite (Hpr c ltac:(left)) in E1. by destruct (free c.1). }
      destruct (Hfh c ltac:(left)) as [H|H]; [congruence|].
      apply orb_true_iff in E2 as [E2|E2].
      + apply existsb_elem in E2 as (c1 & Hc1 & H1). rewrite (Hpr c1 Hc1), andb_false_r in H1. done.
      + rewrite forallb_elem in E2. specialize (E2 c ltac:(left)). rewrite H, (Hpr c ltac:(left)) in E2. done.
  Qed.

  (** ** Half lines *)
  Lemma half_factor_simple t : half_factor eh half t -> simple t = true /\ displacement t = false.
  Proof. by destruct t as [?|[?| |]|[?|[?| |]|]]. Qed.

  Lemma half_harmonious l : Forall (half_factor eh half) l -> harmonious l.
  Proof.
    rewrite Forall_forall. intros H.
    assert (forall t, t ∈ l -> simple t = true /\ displacement t = false) as Hs.
    { intros t Ht. by apply half_factor_simple, H. }
    split; [by intros t Ht; apply Hs|]. split.
    - intros a b Ha Hb. unfold clash. apply Hs in Ha as [H1 H2]. apply Hs in Hb as [H3 H4].
      by destruct a as [?|[?| |]|[?|[?| |]|]], b as [?|[?| |]|[?|[?| |]|]]; try done; cbn; rewrite andb_false_r.
    - intros n m _ (t & Ht & _ & Hd). apply Hs in Ht as [_ Ht]. congruence.
  Qed.

  Lemma half_product a b :
    distinct_spaces ev eh vec half -> half_space eh half a -> half_space eh half b ->
    exists c, space_product ev eh vec half a b = Some c /\ half_space eh half c /\ proper_unit eh c /\
      forall n, dimension eh c n = (dimension eh a n + dimension eh b n)%Z.
  Proof.
    intros (Hd1 & Hd2 & Hd3 & Hd4) (Hha & Hra & Hna) (Hhb & Hrb & Hnb).
    assert (Forall (half_factor eh half) (factors a ++ factors b)) as Hhab by (by apply Forall_app).
    pose proof (half_harmonious _ Hhab) as Hharm.
    destruct (space_product_sorted a b) as (s & Hp & Hs & ->); try done.
    rewrite <- Hp in Hhab. pose proof (half_harmonious _ Hhab) as Hhs.
    assert (s <> []) as Hne.
    { intros ->. apply Permutation_nil in Hp. by destruct (factors a). }
    destruct (finish_spaces_spec s) as (acc & r & merged & root & Hc & Hred & Hin & Hexp & Hno & Hroot & Hm & ->); try done.
    assert (forall t, t ∈ s -> free t = false /\ half_line t = true /\ name t <> ev) as Hfree.
    { intros t Ht. rewrite Forall_forall in Hhab. specialize (Hhab t Ht).
      assert (forall n, n = eh \/ half n = true -> n <> ev /\ vec n = false /\ (Nat.eqb n eh || half n) = true) as Hn.
      { intros n [-> |Hn]; [split; [done|]; split; [done|]; by rewrite Nat.eqb_refl|].
        split; [congruence|]. split; [by apply Hd4|]. by rewrite Hn, orb_true_r. }
      destruct t as [n|[n| |]|[n|[n| |]|]]; try done; cbn in *; destruct (Hn n Hhab) as (H1 & -> & ->);
        rewrite (proj2 (Nat.eqb_neq n ev) H1); done. }
    assert (forall c, c ∈ acc -> free c.1 = false /\ half_line c.1 = true) as Hacc.
    { intros c Hca. destruct (counted_only _ _ Hc c Hca) as (t & Ht & Hn). destruct (Hfree t Ht) as (Hf & Hh & _).
      destruct (counted_entry _ _ Hc c Hca) as [Hk _].
      assert (at_name (name c.1) displacement s = false) as E.
      { apply not_true_iff_false. rewrite at_name_true. intros (u & Hu & _ & Hd). rewrite Forall_forall in Hhab.
        destruct (half_factor_simple u (Hhab u Hu)). congruence. }
      rewrite Forall_forall in Hhab. pose proof (half_factor_simple t (Hhab t Ht)) as [Hst Hdt].
      rewrite Hk. unfold kind. rewrite E, <- Hn.
      destruct t as [n|[n| |]|[n|[n| |]|]]; try done; cbn in Hf, Hh |- *; by repeat case_match. }
    assert (existsb (fun c => free c.1) acc = false) as Hnf.
    { apply not_true_iff_false. rewrite existsb_elem. intros (c & Hca & Hf). destruct (Hacc c Hca). congruence. }
    rewrite Hnf in Hroot. subst root.
    assert (forall x, x ∈ r -> proper_factor eh x /\ half_factor eh half x) as Hr.
    { intros x Hx. destruct (Hin x Hx) as (c & Hca & Hpr & -> & _). destruct (counted_only _ _ Hc c Hca) as (t & Ht & Hn).
      rewrite Forall_forall in Hhab. pose proof (Hhab t Ht) as Hht.
      assert (at_name (name c.1) displacement s = false) as E.
      { apply not_true_iff_false. rewrite at_name_true. intros (u & Hu & _ & Hd).
        destruct (half_factor_simple u (Hhab u Hu)). congruence. }
      assert (name c.1 <> eh) as Hneh.
      { intros Heq. destruct (counted_entry _ _ Hc c Hca) as [Hk _]. unfold Model.prunable in Hpr.
        apply orb_false_iff in Hpr as [_ Hpr]. rewrite Hk, Heq in Hpr. unfold kind in Hpr. rewrite Heq in E. rewrite E in Hpr.
        repeat case_match; cbn in Hpr; rewrite Nat.eqb_refl, orb_true_r in Hpr; done. }
      assert (name c.1 = eh \/ half (name c.1) = true) as Hhc.
      { rewrite <- Hn. destruct t as [n|[n| |]|[n|[n| |]|]]; try done; cbn in Hht |- *; exact Hht. }
      unfold out. rewrite E. destruct (0 <=? _)%Z; done. }
    assert (Forall (proper_factor eh) r) as Hpr by (rewrite Forall_forall; intros x Hx; by apply Hr).
    assert (Forall (half_factor eh half) r) as Hhr by (rewrite Forall_forall; intros x Hx; by apply Hr).
    assert (keep_unpacked acc = false -> r = []) as Hkeep.
    { intros Hk. destruct r as [|x r]; [done|]. exfalso. destruct (Hin x ltac:(left)) as (c & Hca & Hpc & _).
      unfold keep_unpacked in Hk. apply orb_false_iff in Hk as [_ Hk]. apply andb_false_iff in Hk as [Hk|Hk].
      - revert Hk. apply not_false_iff_true, forallb_elem. intros c' Hc'. destruct (Hacc c' Hc') as [-> _]. done.
      - apply orb_false_iff in Hk as [Hk _]. revert Hk. apply not_false_iff_true, existsb_elem. exists c. split; [done|].
        destruct (Hacc c Hca) as [_ ->]. by rewrite Hpc. }
    assert (keep_unpacked acc = true -> r <> []) as Hkeep'.
    { intros Hk ->.
      assert (forall c, c ∈ acc -> prunable c = true) as Hpr'.
      { intros c Hca. apply not_false_iff_true. intros Hpf. specialize (Hexp c Hca Hpf). cbn in Hexp.
        destruct (counted_entry _ _ Hc c Hca) as [_ Hi]. rewrite <- Hexp, Z.mul_0_r in Hi.
        unfold Model.prunable in Hpf. rewrite Hi in Hpf. done. }
      destruct acc as [|c acc].
      { destruct s as [|t s']; [done|]. destruct (counted_all _ _ Hc t ltac:(left)) as (c & Hca & _). by apply elem_of_nil in Hca. }
      unfold keep_unpacked in Hk. apply orb_true_iff in Hk as [Hk|Hk].
      - apply existsb_elem in Hk as (c1 & Hc1 & H). rewrite (Hpr' c1 Hc1), andb_false_r in H. done.
      - apply andb_true_iff in Hk as [_ Hk]. apply orb_true_iff in Hk as [Hk|Hk].
        + apply existsb_elem in Hk as (c1 & Hc1 & H). rewrite (Hpr' c1 Hc1), andb_false_r in H. done.
        + rewrite forallb_elem in Hk. specialize (Hk c ltac:(left)). destruct (Hacc c ltac:(left)) as [_ Hh].
          rewrite Hh, (Hpr' c ltac:(left)) in Hk. done. }
    assert (forall n, n <> eh -> exponent n r = (dimension eh a n + dimension eh b n)%Z) as Hdim.
    { intros n Hn. unfold dimension. rewrite (proj2 (Nat.eqb_neq n eh) Hn). rewrite <- exponent_app.
      rewrite <- (exponent_perm n s _ Hp). destruct (decide (n = ev)) as [-> |Hev].
      - rewrite (exponent_zero ev s) by (intros t Ht; by apply Hfree). apply exponent_zero.
        intros x Hx Hnx. destruct (Hin x Hx) as (c & Hca & _ & -> & _). rewrite out_name in Hnx.
        destruct (counted_only _ _ Hc c Hca) as (t & Ht & Htn). apply (Hfree t Ht). congruence.
      - by apply (kept_exponents s acc r Hc Hexp Hno). }
    assert (forall n, n = eh -> (dimension eh a n + dimension eh b n = 0)%Z) as Hdim0.
    { intros n ->. unfold dimension. by rewrite Nat.eqb_refl. }
    destruct (keep_unpacked acc) eqn:Ek.
    - specialize (Hkeep' eq_refl). destruct (to_composite_space_defined r Hkeep') as (c & E). exists c.
      pose proof (to_composite_space_factors r c E) as Ef. split; [done|]. split; [|split].
      + split; [by rewrite Ef|]. split; by rewrite Ef.
      + destruct r as [|x [|y r]]; [done| |]; cbn in E; injection E as <-.
        * right. by inversion Hpr.
        * split; [cbn; lia|]. done.
      + intros n. rewrite dimension_spec by (by rewrite Ef). rewrite Ef. destruct (decide (n = eh)) as [-> |Hn].
        * rewrite Hdim0 by done. by apply exponent_no_unit.
        * by apply Hdim.
    - specialize (Hkeep eq_refl). subst r.
      assert (merged = [Base eh]) as ->.
      { by apply Permutation_singleton_r in Hm. }
      exists (Single (Base eh)). split; [done|]. split; [|split].
      + split; [cbn; repeat constructor|]. split; [split; [repeat constructor|]|done].
        intros x y Hx%elem_of_list_singleton Hy%elem_of_list_singleton. congruence.
      + by left.
      + intros n. rewrite dimension_no_unit. destruct (decide (n = eh)) as [-> |Hn].
        * by rewrite Hdim0.
        * by rewrite <- Hdim.
  Qed.

  Lemma half_assoc a b c ab bc :
    distinct_spaces ev eh vec half -> half_space eh half a -> half_space eh half b -> half_space eh half c ->
    space_product ev eh vec half a b = Some ab -> space_product ev eh vec half b c = Some bc ->
    space_product ev eh vec half ab c = space_product ev eh vec half a bc.
  Proof.
    intros Hd Ha Hb Hc E1 E2.
    destruct (half_product a b) as (ab' & E1' & H1 & _ & D1); try done. assert (ab' = ab) as -> by congruence.
    destruct (half_product b c) as (bc' & E2' & H2 & _ & D2); try done. assert (bc' = bc) as -> by congruence.
    destruct (half_product ab c) as (x & -> & _ & P3 & D3); try done.
    destruct (half_product a bc) as (y & -> & _ & P4 & D4); try done.
    f_equal. apply (dimension_unique eh (fun _ => Identity)); try done. intros n. rewrite D3, D4, D1, D2. lia.
  Qed.

  Lemma half_dual_factor t : half_factor eh half t ->
    half_factor eh half (dual_of t) /\ name (dual_of t) = name t /\ power (dual_of t) = (- power t)%Z.
  Proof. by destruct t as [?|[?| |]|[?|[?| |]|]]. Qed.

  Lemma half_dual a : half_space eh half a ->
    half_space eh half (dual_of_space a) /\ forall n, dimension eh (dual_of_space a) n = (- dimension eh a n)%Z.
  Proof.
    intros (Hh & [Hs Hu] & Hne). assert (factors (dual_of_space a) = dual_of <$> factors a) as Ef by (by destruct a).
    rewrite Forall_forall in Hh.
    assert (forall n, exponent n (dual_of <$> factors a) = - exponent n (factors a))%Z as He.
    { intros n. clear Hs Hu Hne Ef. induction (factors a) as [|t l IH]; [done|]. cbn.
      destruct (half_dual_factor t) as (_ & -> & ->); [apply Hh; left|].
      fold (fmap (M := list) dual_of l). rewrite IH by (intros; apply Hh; by right). destruct (Nat.eqb _ _); lia. }
    split; [split; [|split; [split|]]|].
    - rewrite Ef, Forall_fmap, Forall_forall. intros t Ht. cbn. by apply half_dual_factor, Hh.
    - rewrite Ef. clear Hu Hne Ef He. induction Hs as [|t l Hs IH Ht]; [constructor|]. cbn [fmap list_fmap]. constructor.
      + apply IH. intros; apply Hh. by right.
      + rewrite Forall_forall in *. intros x Hx. apply elem_of_list_fmap in Hx as (u & -> & Hu).
        destruct (half_dual_factor t) as (_ & -> & _); [apply Hh; left|].
        destruct (half_dual_factor u) as (_ & -> & _); [apply Hh; by right|]. by apply Ht.
    - rewrite Ef. intros x y Hx Hy. apply elem_of_list_fmap in Hx as (t & -> & Ht). apply elem_of_list_fmap in Hy as (u & -> & Hu').
      destruct (half_dual_factor t) as (_ & -> & _); [by apply Hh|]. destruct (half_dual_factor u) as (_ & -> & _); [by apply Hh|].
      intros E. by rewrite (Hu t u).
    - rewrite Ef. by destruct (factors a).
    - intros n. unfold dimension. destruct (Nat.eqb n eh); [done|]. by rewrite Ef.
  Qed.

  Lemma half_inverse a :
    distinct_spaces ev eh vec half -> half_space eh half a ->
    space_product ev eh vec half a (dual_of_space a) = Some (Single (Base eh)).
  Proof.
    intros Hd Ha. destruct (half_dual a Ha) as [Hda D]. destruct (half_product a (dual_of_space a)) as (c & -> & _ & P & Dc); try done.
    f_equal. apply (dimension_unique eh (fun _ => Identity)); [done|by left|]. intros n. rewrite Dc, D, dimension_no_unit. lia.
  Qed.
End spaces.

(** ** Conversions to other spaces with the same base *)
Section lowering.
  Context (ev eh : nat) (vec half : nat -> bool) (base_of : nat -> nat).
  Local Notation lower := (lower ev eh vec half base_of).
  Local Notation to_base_space := (to_base_space ev eh vec half base_of).

  Lemma lower_unfold fuel a t b :
    to_base_space a = Some b -> to_base_space t = Some b ->
    lower fuel a t =
    if decide (b = t) then Some (Ok tt) else match fuel with O => Some NoFuel | S fuel' => lower fuel' b t end.
  Proof.
    intros Ha Ht. destruct fuel; cbn [Model.lower]; rewrite Ha, Ht; cbn [mbind option_bind]; by rewrite decide_True.
  Qed.

  Lemma lower_base fuel a t : to_base_space a = Some t -> to_base_space t = Some t -> lower fuel a t = Some (Ok tt).
  Proof. intros Ha Ht. rewrite (lower_unfold fuel a t t) by done. by rewrite decide_True. Qed.

  Lemma lower_endless fuel a t b :
    to_base_space a = Some b -> to_base_space t = Some b -> to_base_space b = Some b -> b <> t ->
    lower fuel a t = Some NoFuel.
  Proof.
    intros Ha Ht Hb Hne. revert a Ha. induction fuel as [|fuel IH]; intros a Ha;
      rewrite (lower_unfold _ a t b) by done; rewrite decide_False by done; [done|]. by apply IH.
  Qed.

  Lemma lower_ok fuel a t : lower fuel a t = Some (Ok tt) -> to_base_space t = Some t.
  Proof.
    revert a. induction fuel as [|fuel IH]; intros a; cbn [Model.lower];
      destruct (to_base_space a) as [ba|]; try done; cbn [mbind option_bind];
      destruct (to_base_space t) as [bt|] eqn:Et; try done; cbn [mbind option_bind];
      repeat case_decide; subst; try done. intros H. by apply (IH bt).
  Qed.

  Lemma to_base_single t : (forall n, base_of (base_of n) = base_of n) -> simple t = true ->
    to_base_space (Single t) = Some (Single (to_base base_of t)) /\
    to_base_space (Single (to_base base_of t)) = Some (Single (to_base base_of t)).
  Proof.
    intros Hb Hs. split; [done|]. by destruct t as [n|[n| |]|[n|[n| |]|]]; try discriminate Hs; cbn; rewrite Hb.
  Qed.
End lowering.
