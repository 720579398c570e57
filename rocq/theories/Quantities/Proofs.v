From stdpp Require Import list.
From Coq Require Import ZArith QArith Qcanon.
From Verif.Base Require Import Outcome ListLemmas.
From Verif.Products Require Import Model Spec Proofs ProofsUnits ProofsSpaces.
From Verif.Quantities Require Import Model Spec ProofsUnit ProofsNumbers.

Lemma parts_factors a : parts a = factors a. Proof. by destruct a. Qed.

Lemma exponent_pos n l p : (forall x, x ∈ l -> name x = n -> power x = p) -> (exists t, t ∈ l /\ name t = n) -> (0 < p * exponent n l)%Z.
Proof.
  intros H (t & Ht & Hn). assert (p = 1 \/ p = -1)%Z as Hp by (rewrite <-(H t Ht Hn); apply power_cases).
  assert (power t = p) as Et by (by apply H).
  induction l as [|x l IH]; [by apply elem_of_nil in Ht|]. cbn.
  pose proof (exponent_sign n l p Hp ltac:(intros; apply H; [by right|done])) as Hs.
  apply elem_of_cons in Ht as [-> |Ht].
  - rewrite (proj2 (Nat.eqb_eq _ _) Hn), Et. lia.
  - specialize (IH ltac:(intros; apply H; [by right|done]) Ht). destruct (Nat.eqb_spec (name x) n) as [E|E]; [|lia]. rewrite (H x) by (try left; done). lia.
Qed.
Lemma exponent_nonzero t l : reduced l -> t ∈ l -> exponent (name t) l <> 0%Z.
Proof.
  intros [_ Hu] Ht. pose proof (exponent_pos (name t) l (power t)) as H. intros E. rewrite E in H.
  specialize (H ltac:(intros x Hx Hn; by rewrite (Hu x t)) ltac:(by exists t)). lia.
Qed.
Lemma exponent_member n l : exponent n l <> 0%Z -> exists t, t ∈ l /\ name t = n.
Proof.
  intros H. destruct (decide (Exists (fun t => name t = n) l)) as [E|E]; [by apply Exists_exists in E|]. destruct H. apply exponent_zero.
  intros t Ht En. apply E, Exists_exists. by exists t.
Qed.

(** What holds of the names of the factors holds of those of the product. *)
Lemma names_product z (P : nat -> Prop) a b c :
  proper_unit z c -> (forall n, dimension z c n = dimension z a n + dimension z b n)%Z -> P z ->
  Forall (fun t => P (name t)) (factors a) -> Forall (fun t => P (name t)) (factors b) -> Forall (fun t => P (name t)) (factors c).
Proof.
  intros Hc Hd Hz Ha Hb. rewrite Forall_forall in Ha, Hb. rewrite Forall_forall. intros t Ht.
  destruct (unit_cases z (fun _ => Identity) c Hc) as [-> |(_ & Hp & Hr & _)].
  { cbn in Ht. by apply elem_of_list_singleton in Ht as ->. }
  pose proof (exponent_nonzero t _ Hr Ht) as Hn. rewrite <-(dimension_spec z c) in Hn by done. rewrite Hd in Hn.
  rewrite Forall_forall in Hp. pose proof (proper_name z t (Hp t Ht)) as Hne.
  unfold dimension in Hn. rewrite (proj2 (Nat.eqb_neq _ _) Hne) in Hn.
  destruct (Z.eq_dec (exponent (name t) (factors a)) 0) as [E|E].
  - destruct (exponent_member (name t) (factors b)) as (u & Hu & <-); [lia|]. by apply Hb.
  - destruct (exponent_member _ _ E) as (u & Hu & <-). by apply Ha.
Qed.

Section units.
  Context (no_unit : nat) (validator_of : nat -> validator).
  Local Notation legal_unit := (legal_unit no_unit validator_of).
  Lemma legal_composite a : legal_unit a -> to_composite_unit validator_of (factors a) = Some a.
  Proof.
    intros [Hp [v Hv]]. destruct a as [t|ts]; [done|]. cbn in *. destruct Hp as (Hl & _ & _). destruct ts as [|t [|u ts]]; [cbn in Hl; lia..|].
    unfold to_composite_unit. by rewrite Hv.
  Qed.
  Lemma legal_product a b : legal_unit a -> legal_unit b -> reduce_product no_unit validator_of a b = multiply no_unit validator_of a b.
  Proof. intros Ha Hb. apply reduce_multiply; [apply Ha|apply Hb|]. intros x [-> | ->]; by apply legal_composite. Qed.

  Lemma dual_validator t : simple t = true -> displacement t = false -> validator_of_factor validator_of (dual_of_factor no_unit t) = validator_of_factor validator_of t.
  Proof. unfold dual_of_factor. destruct (same t (Base no_unit)); [done|]. by destruct t as [?|[?| |]|[?|[?| |]|]]. Qed.
  Lemma proper_undisplaced t : proper_factor no_unit t -> simple t = true /\ displacement t = false.
  Proof. by destruct t as [?|[?| |]|[?|[?| |]|]]. Qed.
  Lemma proper_wide a : proper_unit no_unit a -> forall t, t ∈ factors a -> simple t = true /\ displacement t = false.
  Proof.
    intros Ha t Ht. destruct (unit_cases no_unit validator_of a Ha) as [-> |(_ & Hp & _)].
    - cbn in Ht. by apply elem_of_list_singleton in Ht as ->.
    - rewrite Forall_forall in Hp. by apply proper_undisplaced, Hp.
  Qed.
  Lemma dual_unit_validator a : proper_unit no_unit a -> unit_validator validator_of (dual_of_unit no_unit a) = unit_validator validator_of a.
  Proof.
    intros Ha. pose proof (proper_wide a Ha) as Hw. destruct a as [t|ts]; cbn in *.
    - f_equal. destruct (Hw t); [left|]. by apply dual_validator.
    - f_equal. rewrite <-list_fmap_compose. apply list_fmap_ext. intros i t Ht. destruct (Hw t); [by eapply elem_of_list_lookup_2|]. by apply dual_validator.
  Qed.
  Lemma legal_dual a : legal_unit a -> legal_unit (dual_of_unit no_unit a).
  Proof. intros [Hp Hv]. split; [by apply (dual_spec no_unit validator_of)|]. by rewrite dual_unit_validator. Qed.
End units.

Section quantities.
  Context (no_unit : nat) (validator_of : nat -> validator).
  Context (ev eh : nat) (vec half : nat -> bool).
  Context (dims : nat -> nat) (other : list Qc -> res (list Qc)).
  Local Notation times := (times no_unit validator_of ev eh vec half dims other).
  Local Notation over := (over no_unit validator_of ev eh vec half dims other).
  Local Notation under := (under no_unit validator_of ev eh vec half dims other).
  Local Notation product_kind := (product_kind no_unit validator_of ev eh vec half).
  Local Notation dual_kind := (dual_kind no_unit).
  Local Notation legal_unit := (legal_unit no_unit validator_of).
  Local Notation dimension := (dimension no_unit).
  Local Notation eval := (eval no_unit validator_of ev eh vec half dims other).
  Implicit Types k l m : kind.

  (** ** Single operations *)
  Lemma reduce_two_spec v w u : reduce_two v w = Some u -> u <> Other /\ (u = HalfLine -> v = HalfLine /\ w = HalfLine).
  Proof. by destruct v, w; cbn; intros [= <-]. Qed.

  Lemma validate_ok v xs : v <> Other -> Forall (suits v) xs -> validate other v xs = Ok xs.
  Proof.
    intros Hv H. destruct v; cbn in *; [done| |done]. replace (forallb _ xs) with true; [done|]. symmetry. apply forallb_forall. intros x Hx.
    apply elem_of_list_In in Hx. rewrite Forall_forall in H. destruct (Qclt_le_dec x 0) as [Hlt|]; [|done]. exfalso. apply (Qclt_not_le x 0); [done|]. by apply H.
  Qed.

  Lemma product_kind_spec k l m : legal_unit (unit_of k) -> legal_unit (unit_of l) -> product_kind k l = Some m ->
    space_product ev eh vec half (space k) (space l) = Some (space m) /\
    proper_unit no_unit (unit_of m) /\ (forall n, dimension (unit_of m) n = dimension (unit_of k) n + dimension (unit_of l) n)%Z /\
    checked m <> Other /\ (checked m = HalfLine -> checked k = HalfLine /\ checked l = HalfLine).
  Proof.
    intros Hk Hl. unfold Model.product_kind. destruct (space_product _ _ _ _ _ _) as [s|] eqn:Es; [|done]. cbn [mbind option_bind].
    destruct (reduce_product _ _ _ _) as [u|] eqn:Eu; [|done]. cbn [mbind option_bind].
    destruct (reduce_two _ _) as [v|] eqn:Ev; [|done]. cbn [mbind option_bind]. destruct (consistent _ _ _ _ _); [|done]. intros [= <-]. cbn.
    rewrite legal_product in Eu by done. destruct (product_spec no_unit validator_of (unit_of k) (unit_of l) u) as [Hp Hd]; [apply Hk|apply Hl|done|].
    split; [done|]. split; [done|]. split; [done|]. by apply reduce_two_spec.
  Qed.

  Lemma times_spec k x l y m r : legal_unit (unit_of k) -> legal_unit (unit_of l) -> suits (checked k) x -> suits (checked l) y ->
    times k [x] l [y] = Gives m r ->
    r = Ok [(x * y)%Qc] /\ suits (checked m) (x * y)%Qc /\
    forall n, dimension (unit_of m) n = (dimension (unit_of k) n + dimension (unit_of l) n)%Z.
  Proof.
    intros Hk Hl Hx Hy. unfold Model.times. destruct (multiplicable _ _ _ _ _ _ _ _); [|done]. destruct (product_kind k l) as [p|] eqn:E; [|done].
    destruct (_ && _); [|done]. intros H. injection H as <- <-. destruct (product_kind_spec k l p Hk Hl E) as (_ & _ & Hd & Ho & Hh).
    assert (suits (checked p) (x * y)%Qc) as Hs.
    { destruct (checked p); [done| |done]. destruct (Hh eq_refl) as [E1 E2]. rewrite E1 in Hx. rewrite E2 in Hy. by apply nonneg_times. }
    split; [|done]. apply validate_ok; [done|]. by constructor.
  Qed.

  Lemma over_spec k xs l y m r : legal_unit (unit_of k) -> legal_unit (unit_of l) -> Forall (suits (checked k)) xs -> suits (checked l) y -> y <> 0%Qc ->
    over k xs l [y] = Gives m r ->
    r = Ok ((fun x => x / y)%Qc <$> xs) /\ Forall (suits (checked m)) ((fun x => x / y)%Qc <$> xs) /\
    forall n, dimension (unit_of m) n = (dimension (unit_of k) n - dimension (unit_of l) n)%Z.
  Proof.
    intros Hk Hl Hx Hy Hn. unfold Model.over. destruct (divisible _ _ _ _ _ _ _ _); [|done].
    destruct (product_kind k (dual_kind l)) as [p|] eqn:E; [|done]. intros H. injection H as <- <-. rewrite decide_False by done.
    destruct (product_kind_spec k (dual_kind l) p Hk (legal_dual no_unit validator_of _ Hl) E) as (_ & _ & Hd & Ho & Hh).
    assert (Forall (suits (checked p)) ((fun x => x / y)%Qc <$> xs)) as Hs.
    { rewrite Forall_fmap. eapply Forall_impl; [exact Hx|]. intros x Hs. cbn. destruct (checked p); [done| |done]. destruct (Hh eq_refl) as [E1 E2].
      cbn in E2. rewrite E1 in Hs. rewrite E2 in Hy. by apply nonneg_over. }
    split; [by apply validate_ok|]. split; [done|]. intros n. rewrite Hd. cbn [unit_of Model.dual_kind].
    destruct (dual_spec no_unit validator_of (unit_of l)) as (_ & D & _); [apply Hl|]. rewrite D. lia.
  Qed.

  Lemma under_spec c l y m r : legal_unit (unit_of l) -> suits (checked l) y -> y <> 0%Qc -> checked l <> Other ->
    under c l [y] = Gives m r ->
    (r = Ok [(c / y)%Qc] /\ suits (checked m) (c / y)%Qc \/ r = Throw DomainError /\ checked l = HalfLine /\ (c < 0)%Qc) /\
    forall n, dimension (unit_of m) n = (- dimension (unit_of l) n)%Z.
  Proof.
    intros Hl Hy Hn Ho. unfold Model.under. destruct (_ && _); [|done]. intros H. injection H as <- <-. rewrite decide_False by done.
    destruct (dual_spec no_unit validator_of (unit_of l)) as (_ & D & _); [apply Hl|]. split; [|by intros n; cbn; rewrite D].
    cbn. destruct (checked l) eqn:Ec; [by left| |done]. cbn. destruct (Qclt_le_dec (c / y) 0) as [Hlt|Hle].
    - right. split; [done|]. split; [done|]. destruct (Qclt_le_dec c 0) as [|Hc]; [done|]. exfalso. apply (Qclt_not_le _ _ Hlt). by apply nonneg_over.
    - by left.
  Qed.
  Lemma under_throws c l y m r : suits (checked l) y -> y <> 0%Qc -> checked l = HalfLine -> (c < 0)%Qc -> under c l [y] = Gives m r -> r = Throw DomainError.
  Proof.
    intros Hy Hn Hh Hc. unfold Model.under. destruct (_ && _); [|done]. intros H. injection H as <- <-. rewrite decide_False, Hh by done. rewrite Hh in Hy. cbn in Hy.
    cbn. destruct (Qclt_le_dec (c / y) 0) as [|Hle]; [done|]. exfalso. apply (Qclt_not_le _ _ Hc).
    replace c with (c / y * y)%Qc by (by field). by apply nonneg_times.
  Qed.

  Lemma times_comm k x l y : legal_unit (unit_of k) -> legal_unit (unit_of l) ->
    harmonious (factors (space k) ++ factors (space l)) -> reduced (factors (space k)) -> reduced (factors (space l)) ->
    times k [x] l [y] = times l [y] k [x].
  Proof.
    intros Hk Hl Hh Hrk Hrl. unfold Model.times, multiplicable, composable.
    rewrite (orb_comm (Nat.eqb (D dims k) 1)), (andb_comm (Nat.eqb (D dims k) 1)), (andb_comm (_ || _) (_ || _)).
    assert (product_kind k l = product_kind l k) as E.
    { unfold Model.product_kind. rewrite (space_product_comm ev eh vec half (space k) (space l)) by done. rewrite !legal_product by done.
      rewrite (product_comm no_unit validator_of (unit_of k)) by (apply Hk || apply Hl). by replace (reduce_two (checked k) (checked l)) with (reduce_two (checked l) (checked k)) by (by destruct (checked k), (checked l)). }
    rewrite E. destruct (_ && _); [|done]. destruct (product_kind l k); [|done]. destruct (_ && _); [|done]. by rewrite Qcmult_comm.
  Qed.
End quantities.
