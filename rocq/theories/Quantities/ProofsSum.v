From stdpp Require Import list.
From Coq Require Import ZArith QArith Qcanon.
From Verif.Base Require Import Outcome ListLemmas.
From Verif.Products Require Import Model Spec Proofs ProofsUnits ProofsSpaces.
From Verif.Quantities Require Import Model ModelSum Spec SpecSum ProofsUnit ProofsNumbers Proofs ProofsExpr.

Lemma pos_plus x y : (0 < x)%Qc -> (0 < y)%Qc -> (0 < x + y)%Qc.
Proof.
  intros Hx Hy. apply Qclt_le_trans with x; [done|]. rewrite <-(Qcplus_0_r x) at 1. apply Qcplus_le_compat; [apply Qcle_refl|by apply Qclt_le_weak].
Qed.

Section sums.
  Context (no_unit : nat) (validator_of : nat -> validator).
  Context (ev eh : nat) (vec half : nat -> bool).
  Context (dims : nat -> nat) (other : list Qc -> res (list Qc)).
  Context (origin : nat -> bool) (base_of : nat -> option nat).
  Hypotheses (Hno : validator_of no_unit = HalfLine) (Hdim : dims eh = 1%nat) (Hds : distinct_spaces ev eh vec half).
  Hypotheses (Heh : base_of eh = None) (Hbase : bases half dims base_of).
  Local Notation times := (times no_unit validator_of ev eh vec half dims other).
  Local Notation over := (over no_unit validator_of ev eh vec half dims other).
  Local Notation plus := (plus validator_of ev eh vec half dims other origin base_of).
  Local Notation product_kind := (product_kind no_unit validator_of ev eh vec half).
  Local Notation dual_kind := (dual_kind no_unit).
  Local Notation dimension := (dimension no_unit).
  Local Notation value_of := (value_of no_unit validator_of ev eh vec half dims other origin base_of).
  Local Notation magnitude := (magnitude no_unit validator_of eh half dims).
  Local Notation magnitude_kind := (magnitude_kind no_unit validator_of eh half dims).
  Local Notation absolute_kind := (absolute_kind no_unit validator_of eh half dims).
  Local Notation common_base := (common_base dims base_of).
  Implicit Types k l m : kind.

  (** The type of a sum *)
  Definition sum_kind k l : option kind :=
    if decide (k = l) then Some k
    else if decide (space k = space l) then None
    else if decide (unit_of k = unit_of l /\ checked k = checked l) then b ← common_base (space k) (space l); Some (Kind (Single (Base b)) (unit_of k) (checked k))
    else None.

  Lemma half_origin k : Forall (half_factor eh half) (factors (space k)) -> has_origin ev eh vec half origin k = true.
  Proof.
    intros H. unfold has_origin. rewrite parts_factors. apply orb_true_iff. right. apply forallb_forall. intros t Ht%elem_of_list_In.
    rewrite Forall_forall in H. specialize (H t Ht). destruct t as [n|[?| |]|[n|[?| |]|]]; cbn in *; try done; destruct H as [-> | ->];
      rewrite ?Nat.eqb_refl, ?orb_true_r; done.
  Qed.
  Lemma common_base_spec a b i : common_base a b = Some i -> exists n m : nat, a = Single (Base n) /\ b = Single (Base m) /\ base_of n = Some i /\ base_of m = Some i /\ dims n = dims m.
  Proof.
    destruct a as [[n| |]|]; try done. destruct b as [[m0| |]|]; try done. unfold ModelSum.common_base. destruct (base_of n) as [i'|] eqn:En; [|done].
    destruct (base_of m0) as [j'|] eqn:Em; [|done]. destruct (Nat.eqb_spec i' j') as [-> |]; [|done]. destruct (Nat.eqb_spec (dims n) (dims m0)) as [Ed|]; [|done].
    intros [= <-]. exists n, m0. done.
  Qed.
  Lemma magnitude_base k n b : magnitude_kind k -> space k = Single (Base n) -> base_of n = Some b ->
    half n = true /\ half b = true /\ dims b = 1%nat /\ base_of b = Some b /\ dims n = 1%nat.
  Proof using Heh Hbase.
    intros [[(Hh & _) Hd _ _ _] _] Es Eb. rewrite Es in Hh, Hd. cbn in Hh, Hd. apply Forall_cons in Hh as [Hh _]. apply Forall_cons in Hd as [Hd _]. cbn in Hh, Hd.
    destruct Hh as [-> |Hh]; [congruence|]. destruct (Hbase n b Hh Eb) as (H1 & H2 & H3). split; [done|]. split; [done|]. split; [congruence|]. done.
  Qed.
  Lemma sum_kind_spec k l m : magnitude_kind k -> magnitude_kind l -> sum_kind k l = Some m ->
    magnitude_kind m /\ unit_of m = unit_of k /\ unit_of m = unit_of l.
  Proof using Heh Hbase.
    intros Hk Hl. unfold sum_kind. destruct (decide (k = l)) as [-> |Hkl]; [by intros [= <-]|]. destruct (decide (space k = space l)) as [|Hsp]; [done|].
    destruct (decide (unit_of k = unit_of l /\ checked k = checked l)) as [[Eu Ec]|]; [|done]. destruct (common_base (space k) (space l)) as [b|] eqn:Eb; [|done].
    intros [= <-]. cbn. split; [|done]. destruct (common_base_spec _ _ _ Eb) as (n & n' & En & En' & Bn & Bn' & _).
    destruct (magnitude_base k n b Hk En Bn) as (H1 & H2 & H3 & H4 & H5). destruct Hk as [[_ _ Hu Hv Hc] _]. split; [|cbn].
    - split; cbn; try done.
      + split; [constructor; [by right|done]|]. split; [|done]. split; [repeat constructor|]. intros x y -> %elem_of_list_singleton -> %elem_of_list_singleton. done.
      + by constructor.
    - destruct (decide (b = eh)) as [-> |Hb]; [by left|by right].
  Qed.
  Lemma magnitude_plus k x l y : magnitude_kind k -> magnitude_kind l -> (0 < x)%Qc -> (0 < y)%Qc ->
    plus k [x] l [y] = match sum_kind k l with Some m => Gives m (Ok [(x + y)%Qc]) | None => NotOffered end.
  Proof using Hno Hdim Hds Heh Hbase.
    intros Hk Hl Hx Hy. assert (forall v, v <> Other -> validate other v [(x + y)%Qc] = Ok [(x + y)%Qc]) as Hv.
    { intros v Hv. apply validate_ok; [done|]. constructor; [|done]. destruct v; try done. by apply Qclt_le_weak, pos_plus. }
    unfold ModelSum.plus, sum_kind. destruct (decide (k = l)) as [-> |Hkl].
    { rewrite half_origin by apply Hk. cbn [zip_with]. rewrite Hv by apply Hk. done. }
    destruct (decide (space k = space l)) as [|Hsp]; [done|]. destruct (decide _) as [[Eu Ec]|]; [|done]. destruct (common_base (space k) (space l)) as [b|] eqn:Eb; [|done].
    cbn [mbind option_bind]. rewrite (absolute_absolute no_unit validator_of ev eh vec half dims Hno Hdim Hds) by apply Hk. cbv zeta.
    destruct (sum_kind_spec k l (Kind (Single (Base b)) (unit_of k) (checked k)) Hk Hl) as ([Hm _] & _).
    { unfold sum_kind. rewrite decide_False by done. rewrite decide_False by done. rewrite decide_True by done. by rewrite Eb. }
    unfold consistent. destruct (half_affine no_unit validator_of ev eh vec half dims Hno Hdim Hds (Kind (Single (Base b)) (unit_of k) (checked k))) as [_ ->]; [apply Hm|].
    cbn [negb orb checked zip_with]. rewrite Hv by apply Hk. done.
  Qed.

  Lemma sum_kind_comm k l : sum_kind k l = sum_kind l k.
  Proof.
    unfold sum_kind. destruct (decide (k = l)) as [-> |H1]; [by rewrite decide_True|]. rewrite (decide_False (P := l = k)) by congruence.
    destruct (decide (space k = space l)) as [H2|H2]; [by rewrite (decide_True (P := space l = space k))|]. rewrite (decide_False (P := space l = space k)) by congruence.
    destruct (decide (unit_of k = unit_of l /\ checked k = checked l)) as [[H3 H4]|H3].
    - rewrite decide_True by done. rewrite H3, H4. f_equal. unfold ModelSum.common_base. destruct (space k) as [[n| |]|], (space l) as [[m0| |]|]; try done.
      destruct (base_of n) as [i|], (base_of m0) as [j|]; try done. rewrite (Nat.eqb_sym i j), (Nat.eqb_sym (dims n)). destruct (Nat.eqb_spec j i) as [-> |]; [|done]. done.
    - rewrite decide_False; [done|]. intros [? ?]. apply H3. done.
  Qed.
  Lemma plus_comm k x l y : magnitude k [x] -> magnitude l [y] -> plus k [x] l [y] = plus l [y] k [x].
  Proof using Hno Hdim Hds Heh Hbase.
    intros (Hk & x' & Ex & Hx)%magnitude_split (Hl & y' & Ey & Hy)%magnitude_split. injection Ex as <-. injection Ey as <-.
    rewrite !magnitude_plus by done. rewrite sum_kind_comm, Qcplus_comm. done.
  Qed.

  (** Kinds which can be added *)
  Lemma sum_kind_single k l m : sum_kind k l = Some m -> k <> l -> exists n n' b, space k = Single (Base n) /\ space l = Single (Base n') /\ n <> n' /\
    base_of n = Some b /\ base_of n' = Some b /\ dims n = dims n' /\ unit_of k = unit_of l /\ checked k = checked l /\ m = Kind (Single (Base b)) (unit_of k) (checked k).
  Proof.
    unfold sum_kind. intros E Hn. rewrite decide_False in E by done. destruct (decide (space k = space l)) as [|Hs]; [done|].
    destruct (decide (unit_of k = unit_of l /\ checked k = checked l)) as [[Eu Ec]|]; [|done]. destruct (common_base (space k) (space l)) as [b|] eqn:Eb; [|done].
    injection E as <-. destruct (common_base_spec _ _ _ Eb) as (n & n' & En & En' & Bn & Bn' & Ed). exists n, n', b. rewrite En, En' in Hs.
    repeat (split; [done || congruence|]). done.
  Qed.
  Lemma sum_kind_make n n' b u v : n <> n' -> base_of n = Some b -> base_of n' = Some b -> dims n = dims n' ->
    sum_kind (Kind (Single (Base n)) u v) (Kind (Single (Base n')) u v) = Some (Kind (Single (Base b)) u v).
  Proof.
    intros Hn B1 B2 Hd. unfold sum_kind. rewrite decide_False by congruence. cbn [space unit_of checked]. rewrite decide_False by congruence. rewrite decide_True by done.
    unfold ModelSum.common_base. rewrite B1, B2, Nat.eqb_refl, Hd, Nat.eqb_refl. done.
  Qed.
  Lemma sum_kind_same k : sum_kind k k = Some k.
  Proof. unfold sum_kind. by rewrite decide_True. Qed.
  Lemma same_type k x y : magnitude k [x] -> magnitude k [y] -> plus k [x] k [y] = Gives k (Ok [(x + y)%Qc]).
  Proof using Hno Hdim Hds Heh Hbase.
    intros (Hk & x' & Ex & Hx)%magnitude_split (_ & y' & Ey & Hy)%magnitude_split. injection Ex as <-. injection Ey as <-. by rewrite magnitude_plus, sum_kind_same.
  Qed.
  Lemma other_space n n' b u v x y : magnitude (Kind (Single (Base n)) u v) [x] -> magnitude (Kind (Single (Base n')) u v) [y] -> n <> n' -> base_of n = Some b -> base_of n' = Some b ->
    plus (Kind (Single (Base n)) u v) [x] (Kind (Single (Base n')) u v) [y] = Gives (Kind (Single (Base b)) u v) (Ok [(x + y)%Qc]).
  Proof using Hno Hdim Hds Heh Hbase.
    intros (Hk & x' & Ex & Hx)%magnitude_split (Hl & y' & Ey & Hy)%magnitude_split Hn B1 B2. injection Ex as <-. injection Ey as <-. rewrite magnitude_plus by done.
    destruct (magnitude_base _ n b Hk eq_refl B1) as (_ & _ & _ & _ & D1). destruct (magnitude_base _ n' b Hl eq_refl B2) as (_ & _ & _ & _ & D2).
    rewrite (sum_kind_make n n' b) by congruence. done.
  Qed.

  Lemma kind_eta k : k = Kind (space k) (unit_of k) (checked k). Proof. by destruct k. Qed.

  Lemma sum_kind_assoc_some k l m p q : magnitude_kind k -> magnitude_kind l -> magnitude_kind m ->
    sum_kind k l = Some p -> sum_kind p m = Some q -> (r ← sum_kind l m; sum_kind k r) = Some q.
  Proof using Heh Hbase.
    intros Hk Hl Hm E1 E2. destruct (decide (k = l)) as [<- |Hkl].
    - rewrite sum_kind_same in E1. injection E1 as <-. rewrite E2. cbn [mbind option_bind].
      destruct (decide (k = m)) as [<- |Hkm]; [rewrite sum_kind_same in E2; injection E2 as <-; apply sum_kind_same|].
      destruct (sum_kind_single k m q E2 Hkm) as (n & n' & b & Sn & Sn' & Hn & Bn & Bn' & Dn & Eu & Ec & ->).
      destruct (magnitude_base k n b Hk Sn Bn) as (_ & _ & Db & Bb & Dn1).
      rewrite (kind_eta k), Sn. cbn [unit_of checked]. destruct (decide (n = b)) as [-> |Hnb]; [apply sum_kind_same|]. by apply sum_kind_make; [| | |congruence].
    - destruct (sum_kind_single k l p E1 Hkl) as (n & n' & b & Sn & Sn' & Hn & Bn & Bn' & Dn & Eu & Ec & ->).
      destruct (magnitude_base k n b Hk Sn Bn) as (_ & _ & Db & Bb & Dn1).
      assert (exists n'', space m = Single (Base n'') /\ base_of n'' = Some b /\ dims n'' = 1%nat /\ unit_of m = unit_of k /\ checked m = checked k /\ q = Kind (Single (Base b)) (unit_of k) (checked k)) as (n'' & Sm & Bm & Dm & Um & Cm & ->).
      { destruct (decide (Kind (Single (Base b)) (unit_of k) (checked k) = m)) as [<- |Hpm].
        - rewrite sum_kind_same in E2. injection E2 as <-. by exists b.
        - destruct (sum_kind_single _ m q E2 Hpm) as (i & i' & c & Si & Si' & Hi & Bi & Bi' & Di & Fu & Fc & ->). cbn in Si, Fu, Fc. injection Si as <-. assert (c = b) as -> by congruence.
          exists i'. repeat (split; [done || congruence|]). done. }
      rewrite (kind_eta l), (kind_eta m), Sn', Sm, Um, Cm, <-Eu, <-Ec.
      destruct (decide (n' = n'')) as [-> |Hn'].
      + rewrite sum_kind_same. cbn [mbind option_bind]. rewrite (kind_eta k), Sn. cbn [unit_of checked]. by apply sum_kind_make; [| | |congruence].
      + rewrite (sum_kind_make n' n'' b) by (done || congruence). cbn [mbind option_bind]. rewrite (kind_eta k), Sn. cbn [unit_of checked].
        destruct (decide (n = b)) as [-> |Hnb]; [apply sum_kind_same|]. by apply sum_kind_make; [| | |congruence].
  Qed.
  Lemma sum_kind_assoc k l m : magnitude_kind k -> magnitude_kind l -> magnitude_kind m ->
    (p ← sum_kind k l; sum_kind p m) = (r ← sum_kind l m; sum_kind k r).
  Proof using Heh Hbase.
    intros Hk Hl Hm. destruct (p ← sum_kind k l; sum_kind p m) as [q|] eqn:E.
    - destruct (sum_kind k l) as [p|] eqn:E1; [|done]. cbn [mbind option_bind] in E. by rewrite (sum_kind_assoc_some k l m p q).
    - destruct (r ← sum_kind l m; sum_kind k r) as [q|] eqn:E'; [|done]. destruct (sum_kind l m) as [r|] eqn:E1; [|done]. cbn [mbind option_bind] in E'.
      rewrite (sum_kind_comm l m) in E1. rewrite (sum_kind_comm k r) in E'.
      pose proof (sum_kind_assoc_some m l k r q Hm Hl Hk E1 E') as H. rewrite (sum_kind_comm l k) in H. destruct (sum_kind k l) as [p|]; [|done]. cbn [mbind option_bind] in *.
      rewrite sum_kind_comm in H. congruence.
  Qed.
  Lemma plus_assoc k x l y m z : magnitude k [x] -> magnitude l [y] -> magnitude m [z] ->
    apply plus (plus k [x] l [y]) (Gives m (Ok [z])) = apply plus (Gives k (Ok [x])) (plus l [y] m [z]).
  Proof using Hno Hdim Hds Heh Hbase.
    intros (Hk & x' & Ex & Hx)%magnitude_split (Hl & y' & Ey & Hy)%magnitude_split (Hm & z' & Ez & Hz)%magnitude_split. injection Ex as <-. injection Ey as <-. injection Ez as <-.
    rewrite (magnitude_plus k x l y), (magnitude_plus l y m z) by done. pose proof (sum_kind_assoc k l m Hk Hl Hm) as H.
    destruct (sum_kind k l) as [p|] eqn:E1; destruct (sum_kind l m) as [r|] eqn:E2; cbn [mbind option_bind] in H; cbn [apply].
    - destruct (sum_kind_spec k l p Hk Hl E1) as (Hp & _). destruct (sum_kind_spec l m r Hl Hm E2) as (Hr & _).
      rewrite magnitude_plus by (try done; by apply pos_plus). rewrite magnitude_plus by (try done; by apply pos_plus). rewrite H, Qcplus_assoc. done.
    - destruct (sum_kind_spec k l p Hk Hl E1) as (Hp & _). rewrite magnitude_plus by (try done; by apply pos_plus). by rewrite H.
    - destruct (sum_kind_spec l m r Hl Hm E2) as (Hr & _). rewrite magnitude_plus by (try done; by apply pos_plus). by rewrite <-H.
    - done.
  Qed.

  (** Products distribute over the sum of two values of the same type. *)
  Lemma distributive k x l y z : magnitude k [x] -> magnitude l [y] -> magnitude l [z] ->
    apply times (Gives k (Ok [x])) (plus l [y] l [z]) = apply plus (times k [x] l [y]) (times k [x] l [z]).
  Proof using Hno Hdim Hds Heh Hbase.
    intros (Hk & x' & Ex & Hx)%magnitude_split (Hl & y' & Ey & Hy)%magnitude_split (_ & z' & Ez & Hz)%magnitude_split. injection Ex as <-. injection Ey as <-. injection Ez as <-.
    rewrite magnitude_plus, sum_kind_same by done. cbn [apply].
    rewrite !(magnitude_times no_unit validator_of ev eh vec half dims other Hno Hdim Hds) by (try done; by apply pos_plus).
    destruct (product_kind k l) as [m|] eqn:E; [|done]. cbn [apply].
    assert (magnitude_kind m) as Hm by (apply (absolute_result no_unit validator_of ev eh vec half dims Hno Hdim Hds k l m); [apply Hk|apply Hl|done]).
    rewrite magnitude_plus, sum_kind_same by (try done; by apply pos_times). do 3 f_equal. ring.
  Qed.

  (** ** Expressions *)
  Inductive verdict := Good (k : kind) | Bad | Absent.
  Definition both (f : kind -> kind -> verdict) (a b : verdict) : verdict :=
    match a, b with Good k, Good l => f k l | Good _, o => o | o, _ => o end.
  Definition or_bad (o : option kind) : verdict := match o with Some k => Good k | None => Bad end.
  Definition or_absent (o : option kind) : verdict := match o with Some k => Good k | None => Absent end.
  Fixpoint kind_of (ks : list kind) (e : term) : verdict :=
    match e with
    | Of i => or_absent (ks !! i)
    | Product a b => both (fun k l => or_bad (product_kind k l)) (kind_of ks a) (kind_of ks b)
    | Quotient a b => both (fun k l => or_bad (product_kind k (dual_kind l))) (kind_of ks a) (kind_of ks b)
    | Sum a b => both (fun k l => or_absent (sum_kind k l)) (kind_of ks a) (kind_of ks b)
    end.
  Lemma both_good f a b m : both f a b = Good m -> exists k l, a = Good k /\ b = Good l /\ f k l = Good m.
  Proof. destruct a, b; cbn; try done. intros H. by eexists _, _. Qed.

  Section env.
    Context (env : list (kind * list Qc)).
    Hypothesis Henv : Forall (fun q => magnitude q.1 q.2) env.
    Local Notation ks := (env.*1).

    Lemma kind_spec e m : kind_of ks e = Good m -> magnitude_kind m /\ (0 < number env e)%Qc /\ homogeneous no_unit env e /\
      forall n, dimension (unit_of m) n = dimensions no_unit env e n.
    Proof using Hno Hdim Hds Heh Hbase Henv origin other.
      revert m. induction e as [i|a IHa b IHb|a IHa b IHb|a IHa b IHb]; intros m E; cbn [kind_of] in E.
      - rewrite list_lookup_fmap in E. destruct (env !! i) as [[k xs]|] eqn:Ei; [|done]. injection E as <-. pose proof (proj1 (Forall_lookup _ _) Henv i _ Ei) as H. cbn in H.
        apply magnitude_split in H as (Hk & x & -> & Hx). cbn [number dimensions homogeneous]. rewrite Ei. done.
      - apply both_good in E as (k & l & Ek & El & E). destruct (product_kind k l) as [p|] eqn:Ep; [|done]. injection E as ->.
        destruct (IHa k Ek) as ([Hk _] & Pk & Gk & Dk). destruct (IHb l El) as ([Hl _] & Pl & Gl & Dl).
        destruct (absolute_result no_unit validator_of ev eh vec half dims Hno Hdim Hds k l m Hk Hl Ep) as (Hm & _ & Dm). split; [done|]. split; [by apply pos_times|]. split; [done|].
        intros n. cbn. by rewrite Dm, Dk, Dl.
      - apply both_good in E as (k & l & Ek & El & E). destruct (product_kind k (dual_kind l)) as [p|] eqn:Ep; [|done]. injection E as ->.
        destruct (IHa k Ek) as ([Hk _] & Pk & Gk & Dk). destruct (IHb l El) as ([Hl _] & Pl & Gl & Dl).
        destruct (absolute_result no_unit validator_of ev eh vec half dims Hno Hdim Hds k (dual_kind l) m Hk (absolute_dual no_unit validator_of eh vec half dims l Hl) Ep) as (Hm & _ & Dm).
        split; [done|]. split; [by apply pos_over|]. split; [done|].
        intros n. cbn. rewrite Dm, Dk, <-Dl. cbn [unit_of Model.dual_kind]. destruct (dual_spec no_unit validator_of (unit_of l)) as (_ & D & _); [apply Hl|]. rewrite D. lia.
      - apply both_good in E as (k & l & Ek & El & E). destruct (sum_kind k l) as [p|] eqn:Ep; [|done]. injection E as ->.
        destruct (IHa k Ek) as (Hk & Pk & Gk & Dk). destruct (IHb l El) as (Hl & Pl & Gl & Dl). destruct (sum_kind_spec k l m Hk Hl Ep) as (Hm & U1 & U2).
        split; [done|]. split; [by apply pos_plus|]. split.
        + split; [done|]. split; [done|]. intros n. rewrite <-Dk, <-Dl. congruence.
        + intros n. cbn. by rewrite <-Dk, U1.
    Qed.
    Lemma value_spec e : in_scope (length env) e ->
      value_of env e = match kind_of ks e with Good m => Gives m (Ok [number env e]) | Bad => IllFormed | Absent => NotOffered end.
    Proof using Hno Hdim Hds Heh Hbase Henv origin other.
      induction e as [i|a IHa b IHb|a IHa b IHb|a IHa b IHb]; intros Hs; cbn [kind_of ModelSum.value_of].
      - cbn in Hs. destruct (lookup_lt_is_Some_2 env i Hs) as [[k xs] Ei]. cbn [number]. rewrite list_lookup_fmap, Ei. cbn [fmap option_fmap option_map fst or_absent].
        pose proof (proj1 (Forall_lookup _ _) Henv i _ Ei) as H. cbn in H. apply magnitude_split in H as (_ & x & -> & Hx). done.
      - destruct Hs as [Ha Hb]. rewrite IHa, IHb by done. destruct (kind_of ks a) as [k| |] eqn:Ea; [|done|done]. destruct (kind_of ks b) as [l| |] eqn:Eb; [|done|done]. cbn [both apply number].
        destruct (kind_spec a k Ea) as (Hk & Pk & _). destruct (kind_spec b l Eb) as (Hl & Pl & _).
        rewrite (magnitude_times no_unit validator_of ev eh vec half dims other Hno Hdim Hds) by done. by destruct (product_kind k l).
      - destruct Hs as [Ha Hb]. rewrite IHa, IHb by done. destruct (kind_of ks a) as [k| |] eqn:Ea; [|done|done]. destruct (kind_of ks b) as [l| |] eqn:Eb; [|done|done]. cbn [both apply number].
        destruct (kind_spec a k Ea) as (Hk & Pk & _). destruct (kind_spec b l Eb) as (Hl & Pl & _).
        rewrite (magnitude_over no_unit validator_of ev eh vec half dims other Hno Hdim Hds) by done. by destruct (product_kind k (dual_kind l)).
      - destruct Hs as [Ha Hb]. rewrite IHa, IHb by done. destruct (kind_of ks a) as [k| |] eqn:Ea; [|done|done]. destruct (kind_of ks b) as [l| |] eqn:Eb; [|done|done]. cbn [both apply number].
        destruct (kind_spec a k Ea) as (Hk & Pk & _). destruct (kind_spec b l Eb) as (Hl & Pl & _).
        rewrite magnitude_plus by done. by destruct (sum_kind k l).
    Qed.

    Lemma term_value e k r : in_scope (length env) e -> value_of env e = Gives k r ->
      r = Ok [number env e] /\ magnitude k [number env e] /\ homogeneous no_unit env e /\ forall n, dimension (unit_of k) n = dimensions no_unit env e n.
    Proof using Hno Hdim Hds Heh Hbase Henv origin other.
      intros Hs. rewrite (value_spec e Hs). destruct (kind_of ks e) as [m| |] eqn:E; [|done|done]. intros H. injection H as <- <-.
      destruct (kind_spec e m E) as (Hm & Hp & Hh & Hd). split; [done|]. split; [|done]. apply magnitude_split. split; [done|]. eexists. split; [reflexivity|done].
    Qed.
  End env.

  Lemma number_ext env env' e σ : (forall n, (0 < σ n)%Qc) -> σ no_unit = 1%Qc -> Forall (fun q => magnitude q.1 q.2) env -> env' = rescaled σ <$> env ->
    forall m, kind_of env.*1 e = Good m -> number env' e = (number env e * scale_of σ (factors (unit_of m)))%Qc.
  Proof using Hno Hdim Hds Heh Hbase origin other.
    intros Hσ Hone Henv ->. assert (forall n, σ n <> 0%Qc) as Hnz by (intros n; by apply pos_nonzero).
    induction e as [i|a IHa b IHb|a IHa b IHb|a IHa b IHb]; intros m E; cbn [kind_of] in E.
    - rewrite list_lookup_fmap in E. destruct (env !! i) as [[k xs]|] eqn:Ei; [|done]. injection E as <-. pose proof (proj1 (Forall_lookup _ _) Henv i _ Ei) as H. cbn in H.
      apply magnitude_split in H as (_ & x & -> & Hx). cbn [number]. rewrite list_lookup_fmap, Ei. done.
    - apply both_good in E as (k & l & Ek & El & E). destruct (product_kind k l) as [p|] eqn:Ep; [|done]. injection E as ->.
      destruct (kind_spec env Henv a k Ek) as ([Hk _] & _). destruct (kind_spec env Henv b l El) as ([Hl _] & _).
      destruct (absolute_result no_unit validator_of ev eh vec half dims Hno Hdim Hds k l m Hk Hl Ep) as (Hm & _ & Dm).
      cbn [number]. rewrite (IHa k Ek), (IHb l El), (scale_combined no_unit σ Hnz Hone (unit_of k) (unit_of l) (unit_of m) Dm). ring.
    - apply both_good in E as (k & l & Ek & El & E). destruct (product_kind k (dual_kind l)) as [p|] eqn:Ep; [|done]. injection E as ->.
      destruct (kind_spec env Henv a k Ek) as ([Hk _] & _). destruct (kind_spec env Henv b l El) as ([Hl _] & Pl & _).
      destruct (absolute_result no_unit validator_of ev eh vec half dims Hno Hdim Hds k (dual_kind l) m Hk (absolute_dual no_unit validator_of eh vec half dims l Hl) Ep) as (Hm & _ & Dm).
      cbn [number]. rewrite (IHa k Ek), (IHb l El), (scale_combined no_unit σ Hnz Hone (unit_of k) (unit_of (dual_kind l)) (unit_of m) Dm). cbn [unit_of Model.dual_kind].
      destruct (dual_spec no_unit validator_of (unit_of l)) as (_ & D & _); [apply Hl|]. rewrite (scale_opposite no_unit σ Hnz Hone (unit_of l) _ D).
      field. split; [by apply scale_nonzero|by apply pos_nonzero].
    - apply both_good in E as (k & l & Ek & El & E). destruct (sum_kind k l) as [p|] eqn:Ep; [|done]. injection E as ->.
      destruct (kind_spec env Henv a k Ek) as (Hk & _). destruct (kind_spec env Henv b l El) as (Hl & _). destruct (sum_kind_spec k l m Hk Hl Ep) as (Hm & U1 & U2).
      cbn [number]. rewrite (IHa k Ek), (IHb l El), <-U1, <-U2. ring.
  Qed.
  Lemma term_rescaled σ env e k x : (forall n, (0 < σ n)%Qc) -> σ no_unit = 1%Qc -> Forall (fun q => magnitude q.1 q.2) env -> in_scope (length env) e ->
    value_of env e = Gives k (Ok [x]) -> value_of (rescaled σ <$> env) e = Gives k (Ok [(x * scale_of σ (factors (unit_of k)))%Qc]).
  Proof using Hno Hdim Hds Heh Hbase origin other.
    intros Hσ Hone Henv Hs. assert (Forall (fun q => magnitude q.1 q.2) (rescaled σ <$> env)) as Henv'.
    { rewrite Forall_fmap. eapply Forall_impl; [exact Henv|]. intros q Hq. by apply rescaled_magnitude. }
    rewrite (value_spec env Henv e Hs), (value_spec _ Henv' e) by (by rewrite fmap_length). rewrite rescaled_kinds.
    destruct (kind_of env.*1 e) as [m| |] eqn:E; [|done|done]. intros H. injection H as <- <-. do 3 f_equal. by eapply number_ext.
  Qed.
End sums.
