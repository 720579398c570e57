From stdpp Require Import list.
From Coq Require Import ZArith QArith Qcanon.
From Verif.Base Require Import Outcome ListLemmas.
From Verif.Products Require Import Model.
From Verif.Quantities Require Import Model ModelSum ModelDifference ModelNegate SpecDifference ProofsDifference.

Lemma Qc_opp_opp (x : Qc) : (- - x)%Qc = x.
Proof. ring. Qed.
Lemma opp_opp (xs : list Qc) : Qcopp <$> (Qcopp <$> xs) = xs.
Proof. induction xs as [|x xs IH]; [done|]. cbn. rewrite Qc_opp_opp. f_equal. exact IH. Qed.

Section negation.
  Context (ev eh : nat) (vec half origin : nat -> bool) (dims : nat -> nat) (other : list Qc -> res (list Qc)) (intrinsic : validator).
  Local Notation negate := (negate ev eh vec half origin dims other intrinsic).
  Local Notation free := (free ev vec).

  Lemma named_origin t : (match t with Dual _ => False | _ => True end) -> free t = true -> origin_of ev eh vec half origin t = true.
  Proof. destruct t as [n|t|t]; cbn; [|done|done]. intros _ H. apply orb_true_iff in H as [-> | ->]; [done|]. by rewrite !orb_true_r. Qed.
  Lemma negate_free a xs : (match within a with Dual _ => False | _ => True end) -> free (within a) = true -> vetted a = Identity ->
    negate a xs = Yields a (Ok (Qcopp <$> xs)).
  Proof.
    intros Hd Hf Hv. unfold ModelNegate.negate, effectively_absolute, intrinsically_absolute. rewrite named_origin by done. rewrite Hf, Hv. cbn. rewrite andb_false_r. done.
  Qed.
  Lemma negate_twice a xs : (match within a with Dual _ => False | _ => True end) -> free (within a) = true -> vetted a = Identity ->
    negate a (Qcopp <$> xs) = Yields a (Ok xs).
  Proof. intros H1 H2 H3. rewrite negate_free by done. by rewrite opp_opp. Qed.
  Lemma negate_magnitude a xs : half_line eh half (within a) = true -> free (within a) = false -> extent dims (within a) = 1%nat ->
    intrinsic = HalfLine -> vetted a = HalfLine -> negate a xs = Absent.
  Proof.
    intros H1 H2 H3 H4 H5. unfold ModelNegate.negate, effectively_absolute, intrinsically_absolute. rewrite H1, H2, H3, H5, H4. cbn. by rewrite andb_false_r.
  Qed.
  Lemma negate_affine a xs : origin_of ev eh vec half origin (within a) = false -> negate a xs = Absent.
  Proof. intros H. unfold ModelNegate.negate. by rewrite H. Qed.
  Lemma negate_unchecked a xs : origin_of ev eh vec half origin (within a) = true -> vetted a <> intrinsic ->
    negate a xs = Yields a (validate other (vetted a) (Qcopp <$> xs)).
  Proof.
    intros H1 H2. unfold ModelNegate.negate, effectively_absolute. rewrite H1, (bool_decide_eq_false_2 (vetted a = _)) by done. by rewrite andb_false_r.
  Qed.
  Lemma negate_value a xs d r : negate a xs = Yields d r -> d = a /\ r = validate other (vetted a) (Qcopp <$> xs).
  Proof. unfold ModelNegate.negate. destruct (_ && _); [|done]. by intros [= <- <-]. Qed.

  Context (plain : bool) (base : nat -> option ty) (module : nat -> ty).
  Lemma negate_difference a xs b ys d zs : proper_spaces ev vec base module -> (forall n, match module n with Dual _ => False | _ => True end) ->
    pointed ev vec a -> pointed ev vec b -> minus plain ev vec base module dims other a xs b ys = Yields d (Ok zs) ->
    negate d zs = minus plain ev vec base module dims other b ys a xs.
  Proof.
    intros Hp Hm Ha Hb E. destruct (minus_value plain ev vec base module dims other Hp a xs b ys d (Ok zs) Ha Hb E) as (Ez & Hv & Hf & Hi & Hw). injection Ez as ->.
    rewrite (minus_antisymmetric plain ev vec base module dims other Hp a xs b ys d Ha Hb E). apply negate_free; try done.
    assert (forall n, free (Base n) = false -> match free_module ev vec module (Base n) with Dual _ => False | _ => True end) as Hn.
    { intros n H. unfold free_module. rewrite H. apply Hm. }
    destruct Hw as [[_ ->]|(c & H1 & _ & _ & ->)]; [destruct Ha as (n & -> & Hn'); by apply Hn|].
    destruct (base_point ev vec base module Hp a c Ha H1) as (m & -> & Hc & _). by apply Hn.
  Qed.
End negation.
Definition Diff_half (n : nat) : bool := existsb (Nat.eqb n) [2; 6; 7]%nat.
Definition Diff_negate := negate 0 1 Diff_vec Diff_half (fun _ => false) Diff_dims Ok HalfLine.
