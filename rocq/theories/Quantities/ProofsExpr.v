From stdpp Require Import list.
From Coq Require Import ZArith QArith Qcanon.
From Verif.Base Require Import Outcome ListLemmas.
From Verif.Products Require Import Model Spec Proofs ProofsUnits ProofsSpaces.
From Verif.Quantities Require Import Model Spec ProofsUnit ProofsNumbers Proofs.

Section quantities.
  Context (no_unit : nat) (validator_of : nat -> validator).
  Context (ev eh : nat) (vec half : nat -> bool).
  Context (dims : nat -> nat) (other : list Qc -> res (list Qc)).
  Hypotheses (Hno : validator_of no_unit = HalfLine) (Hdim : dims eh = 1%nat) (Hds : distinct_spaces ev eh vec half).
  Local Notation times := (times no_unit validator_of ev eh vec half dims other).
  Local Notation over := (over no_unit validator_of ev eh vec half dims other).
  Local Notation product_kind := (product_kind no_unit validator_of ev eh vec half).
  Local Notation dual_kind := (dual_kind no_unit).
  Local Notation legal_unit := (legal_unit no_unit validator_of).
  Local Notation dimension := (dimension no_unit).
  Local Notation eval := (eval no_unit validator_of ev eh vec half dims other).
  Local Notation magnitude := (magnitude no_unit validator_of eh half dims).
  Implicit Types k l m : kind.

  (** The types of magnitudes, and of the divisors *)
  Record absolute_kind k : Prop := {
    ak_space : half_space eh half (space k);
    ak_dims : Forall (fun t => dims (name t) = 1%nat) (factors (space k));
    ak_unit : proper_unit no_unit (unit_of k);
    ak_units : Forall (fun t => validator_of (name t) = HalfLine) (factors (unit_of k));
    ak_checked : checked k <> Other
  }.
  Definition magnitude_kind k : Prop := absolute_kind k /\ proper_unit eh (space k).

  Lemma magnitude_split k xs : magnitude k xs <-> magnitude_kind k /\ exists x, xs = [x] /\ (0 < x)%Qc.
  Proof. split; [intros [? ? ? ? ? ? ?]; split; [split; [by split|done]|done]|]. intros [[[? ? ? ? ?] ?] ?]. by split. Qed.

  Lemma dims_name t : half_factor eh half t -> dims_of dims t = dims (name t).
  Proof. by destruct t as [?|[?| |]|[?|[?| |]|]]. Qed.
  Lemma absolute_dims k : absolute_kind k -> D dims k = 1%nat.
  Proof.
    intros [(Hh & _ & Hne) Hd _ _ _]. unfold D. rewrite parts_factors. destruct (factors (space k)) as [|t ts]; [done|]. clear Hne.
    apply Forall_cons in Hh as [Ht Hts]. apply Forall_cons in Hd as [Dt Dts]. rewrite fmap_cons. cbn [foldr]. rewrite (dims_name t Ht), Dt.
    assert (foldr max 0 (dims_of dims <$> ts) <= 1)%nat as H; [|lia].
    clear Ht Dt. induction Hts as [|u us Hu _ IH]; [cbn; lia|]. apply Forall_cons in Dts as [Du Dus]. specialize (IH Dus).
    rewrite fmap_cons. cbn [foldr]. rewrite (dims_name u Hu), Du. lia.
  Qed.
  Lemma half_not_free t : half_factor eh half t -> free ev vec t = false /\ half_line eh half t = true.
  Proof using Hno Hdim Hds.
    destruct Hds as (H1 & H2 & H3 & H4). assert (forall n, n = eh \/ half n = true -> Nat.eqb n ev || vec n = false /\ Nat.eqb n eh || half n = true) as H.
    { intros n [-> |Hn].
      - rewrite H2, Nat.eqb_refl, (proj2 (Nat.eqb_neq eh ev)) by congruence. done.
      - rewrite (H4 n Hn), Hn, orb_true_r. split; [|done]. rewrite orb_false_r. apply Nat.eqb_neq. intros ->. congruence. }
    destruct t as [n|[?| |]|[n|[?| |]|]]; cbn; try done; apply H.
  Qed.
  Lemma half_affine k : Forall (half_factor eh half) (factors (space k)) -> vector ev vec k = false /\ affine ev eh vec half k = false.
  Proof using Hno Hdim Hds.
    intros H. rewrite Forall_forall in H. unfold affine, vector. rewrite parts_factors.
    assert (existsb (free ev vec) (factors (space k)) = false) as ->.
    { apply not_true_iff_false. rewrite existsb_exists. intros (t & Ht%elem_of_list_In & Hf). destruct (half_not_free t (H t Ht)). congruence. }
    split; [done|]. cbn. apply negb_false_iff, forallb_forall. intros t Ht%elem_of_list_In. by apply half_not_free, H.
  Qed.
  Lemma half_validators ts : ts <> [] -> Forall (fun t => validator_of (name t) = HalfLine) ts -> (forall t, t ∈ ts -> simple t = true /\ displacement t = false) ->
    reduced_validator (validator_of_factor validator_of <$> ts) = Some HalfLine.
  Proof.
    intros Hne H Hs. assert (Forall (fun v => v = HalfLine) (validator_of_factor validator_of <$> ts)) as Hv.
    { rewrite Forall_fmap. rewrite Forall_forall in *. intros t Ht. cbn. destruct (Hs t Ht) as [S1 S2]. specialize (H t Ht).
      by destruct t as [?|[?| |]|[?|[?| |]|]]. }
    refine (proj2 (proj2 (reduced_validator_values no_unit validator_of _ _ _)) Hv); [|by destruct ts]. eapply Forall_impl; [exact Hv|]. by intros v ->.
  Qed.
  Lemma half_unit a : proper_unit no_unit a -> Forall (fun t => validator_of (name t) = HalfLine) (factors a) ->
    unit_validator validator_of a = Some HalfLine.
  Proof.
    intros Hp H. pose proof (proper_wide no_unit validator_of a Hp) as Hw.
    assert (factors a <> []) as Hne by (destruct a as [t|[|t ts]]; [done| |done]; cbn in Hp; destruct Hp as [Hl _]; cbn in Hl; lia).
    destruct a as [t|ts]; cbn [unit_validator factors] in *.
    - destruct (Hw t) as [S1 S2]; [left|]. apply Forall_cons in H as [H _]. by destruct t as [?|[?| |]|[?|[?| |]|]]; cbn in *; rewrite ?H.
    - by apply half_validators.
  Qed.
  Lemma absolute_legal k : absolute_kind k -> legal_unit (unit_of k).
  Proof. intros [_ _ Hu Hv _]. split; [done|]. exists HalfLine. by apply half_unit. Qed.
  Lemma absolute_absolute k : absolute_kind k -> absolute validator_of ev eh vec half dims k = true.
  Proof using Hno Hdim Hds.
    intros H. unfold absolute. rewrite absolute_dims by done. destruct (half_affine k) as [_ ->]; [apply H|].
    rewrite half_unit by apply H. done.
  Qed.
  Lemma absolute_dual k : absolute_kind k -> absolute_kind (dual_kind k).
  Proof.
    intros H. pose proof H as [Hs Hd Hu Hv Hc]. destruct (half_dual eh vec half (space k) Hs) as [Hs' _].
    destruct (dual_spec no_unit validator_of (unit_of k) Hu) as (Hu' & _ & _). split; cbn; try done.
    - assert (factors (dual_of_space (space k)) = dual_of <$> factors (space k)) as -> by (by destruct (space k)). rewrite Forall_fmap.
      destruct Hs as (Hh & _ & _). rewrite Forall_forall in *. intros t Ht. cbn. destruct (half_dual_factor eh half t (Hh t Ht)) as (_ & -> & _). by apply Hd.
    - rewrite factors_dual, Forall_fmap. rewrite Forall_forall in *. intros t Ht. cbn. destruct (proper_wide no_unit validator_of _ Hu t Ht) as [S1 S2].
      replace (name (dual_of_factor no_unit t)) with (name t); [by apply Hv|]. unfold dual_of_factor. destruct (same t (Base no_unit)); [done|].
      by destruct t as [?|[?| |]|[?|[?| |]|]].
  Qed.

  (** The type of the product *)
  Lemma absolute_product k l : absolute_kind k -> absolute_kind l ->
    exists s v, half_space eh half s /\ proper_unit eh s /\ (forall n, Spec.dimension eh s n = Spec.dimension eh (space k) n + Spec.dimension eh (space l) n)%Z /\
      v <> Other /\ product_kind k l = (u ← multiply no_unit validator_of (unit_of k) (unit_of l); Some (Kind s u v)).
  Proof using Hno Hdim Hds.
    intros Hk Hl. destruct (half_product ev eh vec half (space k) (space l) Hds) as (s & Es & Hs & Hp & Hd); [apply Hk|apply Hl|].
    assert (exists v, reduce_two (checked k) (checked l) = Some v /\ v <> Other) as (v & Ev & Hv).
    { pose proof (ak_checked k Hk). pose proof (ak_checked l Hl). destruct (checked k), (checked l); try done; eexists; (split; [done|done]). }
    exists s, v. split; [done|]. split; [done|]. split; [done|]. split; [done|]. unfold Model.product_kind. rewrite Es. cbn [mbind option_bind].
    rewrite legal_product by (by apply absolute_legal). destruct (multiply _ _ _ _) as [u|]; [|done]. cbn [mbind option_bind]. rewrite Ev. cbn [mbind option_bind].
    unfold consistent. destruct (half_affine (Kind s u v)) as [_ ->]; [apply Hs|]. done.
  Qed.
  Lemma absolute_result k l m : absolute_kind k -> absolute_kind l -> product_kind k l = Some m ->
    magnitude_kind m /\ (forall n, Spec.dimension eh (space m) n = Spec.dimension eh (space k) n + Spec.dimension eh (space l) n)%Z /\
    (forall n, dimension (unit_of m) n = dimension (unit_of k) n + dimension (unit_of l) n)%Z.
  Proof using Hno Hdim Hds.
    intros Hk Hl E. destruct (absolute_product k l Hk Hl) as (s & v & Hs & Hp & Hd & Hv & E'). rewrite E' in E.
    destruct (multiply _ _ _ _) as [u|] eqn:Eu; [|done]. cbn [mbind option_bind] in E. injection E as <-.
    destruct (product_spec no_unit validator_of (unit_of k) (unit_of l) u) as [Hu Du]; [apply Hk|apply Hl|done|]. cbn.
    split; [|done]. split; [|done]. split; cbn; try done.
    - eapply (names_product eh (fun n => dims n = 1%nat)); [done|done|done|apply Hk|apply Hl].
    - eapply (names_product no_unit (fun n => validator_of n = HalfLine)); [done|done|done|apply Hk|apply Hl].
  Qed.

  Lemma magnitude_times k x l y : magnitude_kind k -> magnitude_kind l -> (0 < x)%Qc -> (0 < y)%Qc ->
    times k [x] l [y] = match product_kind k l with Some m => Gives m (Ok [(x * y)%Qc]) | None => IllFormed end.
  Proof using Hno Hdim Hds.
    intros [Hk _] [Hl _] Hx Hy. unfold Model.times, multiplicable, composable. rewrite !absolute_absolute, !absolute_dims by done. cbn.
    destruct (product_kind k l) as [m|] eqn:E; [|done]. f_equal. apply validate_ok.
    - by apply (absolute_result k l m).
    - constructor; [|done]. destruct (checked m); try done. apply Qclt_le_weak. by apply pos_times.
  Qed.
  Lemma magnitude_over k x l y : magnitude_kind k -> magnitude_kind l -> (0 < x)%Qc -> (0 < y)%Qc ->
    over k [x] l [y] = match product_kind k (dual_kind l) with Some m => Gives m (Ok [(x / y)%Qc]) | None => IllFormed end.
  Proof using Hno Hdim Hds.
    intros [Hk _] [Hl _] Hx Hy. unfold Model.over, divisible, composable. rewrite !absolute_absolute, !absolute_dims by done. cbn [andb orb Nat.eqb].
    destruct (product_kind k (dual_kind l)) as [m|] eqn:E; [|done]. f_equal. rewrite decide_False by (by apply pos_nonzero). apply validate_ok.
    - by apply (absolute_result k (dual_kind l) m Hk (absolute_dual l Hl)).
    - constructor; [|done]. destruct (checked m); try done. apply Qclt_le_weak. by apply pos_over.
  Qed.

  (** ** Expressions *)
  Fixpoint type_of (ks : list kind) (e : expr) : option kind :=
    match e with
    | Var i => ks !! i
    | Mul a b => k ← type_of ks a; l ← type_of ks b; product_kind k l
    | Div a b => k ← type_of ks a; l ← type_of ks b; product_kind k (dual_kind l)
    end.

  Section env.
    Context (env : list (kind * list Qc)).
    Hypothesis Henv : Forall (fun q => magnitude q.1 q.2) env.
    Local Notation ks := (env.*1).

    Lemma env_single : Forall single_value env.
    Proof using Henv.
      eapply Forall_impl; [exact Henv|]. intros [k xs] H. cbn in H. apply magnitude_split in H as (_ & x & -> & Hx). exists x. split; [done|]. by apply pos_nonzero.
    Qed.

    Lemma type_spec e m : type_of ks e = Some m -> magnitude_kind m /\ (0 < worth (fun i => occurs_to i e) env)%Qc /\
      forall n, dimension (unit_of m) n = exponents no_unit (fun i => occurs_to i e) env n.
    Proof using Hno Hdim Hds Henv.
      revert m. induction e as [i|a IHa b IHb|a IHa b IHb]; intros m E; cbn [type_of] in E.
      - rewrite list_lookup_fmap in E. destruct (env !! i) as [[k xs]|] eqn:Ei; [|done]. injection E as <-. pose proof (proj1 (Forall_lookup _ _) Henv i _ Ei) as H. cbn in H.
        apply magnitude_split in H as (Hk & x & -> & Hx). split; [done|]. split.
        + cbn [occurs_to]. erewrite worth_var; [done|apply env_single|done].
        + intros n. cbn [occurs_to]. by erewrite exponents_var.
      - destruct (type_of ks a) as [k|]; [|done]. destruct (type_of ks b) as [l|]; [|done]. cbn [mbind option_bind] in E.
        destruct (IHa k eq_refl) as ([Hk _] & Pk & Dk). destruct (IHb l eq_refl) as ([Hl _] & Pl & Dl).
        destruct (absolute_result k l m Hk Hl E) as (Hm & _ & Dm). split; [done|]. cbn [occurs_to]. split.
        + rewrite worth_add by apply env_single. by apply pos_times.
        + intros n. by rewrite exponents_add, Dm, Dk, Dl.
      - destruct (type_of ks a) as [k|]; [|done]. destruct (type_of ks b) as [l|]; [|done]. cbn [mbind option_bind] in E.
        destruct (IHa k eq_refl) as ([Hk _] & Pk & Dk). destruct (IHb l eq_refl) as ([Hl _] & Pl & Dl).
        destruct (absolute_result k (dual_kind l) m Hk (absolute_dual l Hl) E) as (Hm & _ & Dm). split; [done|]. cbn [occurs_to]. split.
        + rewrite worth_sub by apply env_single. by apply pos_over.
        + intros n. rewrite exponents_sub, Dm, Dk, <-Dl. cbn [unit_of Model.dual_kind].
          destruct (dual_spec no_unit validator_of (unit_of l)) as (_ & D & _); [apply Hl|]. rewrite D. lia.
    Qed.

    Lemma eval_spec e : scoped (length env) e ->
      eval env e = match type_of ks e with Some m => Gives m (Ok [worth (fun i => occurs_to i e) env]) | None => IllFormed end.
    Proof using Hno Hdim Hds Henv.
      induction e as [i|a IHa b IHb|a IHa b IHb]; intros Hs; cbn [type_of Model.eval].
      - cbn in Hs. destruct (lookup_lt_is_Some_2 env i Hs) as [[k xs] Ei]. rewrite list_lookup_fmap, Ei. cbn [fmap option_fmap option_map fst].
        pose proof (proj1 (Forall_lookup _ _) Henv i _ Ei) as H. cbn in H. apply magnitude_split in H as (_ & x & -> & Hx). cbn [occurs_to].
        erewrite worth_var; [done|apply env_single|done].
      - destruct Hs as [Ha Hb]. rewrite IHa, IHb by done. destruct (type_of ks a) as [k|] eqn:Ea; [|done]. cbn [mbind option_bind].
        destruct (type_of ks b) as [l|] eqn:Eb; [|done]. cbn [mbind option_bind]. cbn [apply].
        destruct (type_spec a k Ea) as (Hk & Pk & _). destruct (type_spec b l Eb) as (Hl & Pl & _). rewrite magnitude_times by done.
        cbn [occurs_to]. by rewrite worth_add by apply env_single.
      - destruct Hs as [Ha Hb]. rewrite IHa, IHb by done. destruct (type_of ks a) as [k|] eqn:Ea; [|done]. cbn [mbind option_bind].
        destruct (type_of ks b) as [l|] eqn:Eb; [|done]. cbn [mbind option_bind]. cbn [apply].
        destruct (type_spec a k Ea) as (Hk & Pk & _). destruct (type_spec b l Eb) as (Hl & Pl & _). rewrite magnitude_over by done.
        cbn [occurs_to]. by rewrite worth_sub by apply env_single.
    Qed.

    (** The space is determined by the powers as well. *)
    Fixpoint space_exponents (f : nat -> Z) (qs : list (kind * list Qc)) (n : nat) : Z :=
      match qs with
      | [] => 0%Z
      | (k, _) :: qs' => (f 0%nat * Spec.dimension eh (space k) n + space_exponents (fun i => f (S i)) qs' n)%Z
      end.
    Lemma space_exponents_as f qs n : space_exponents f qs n = exponents eh f ((fun q => (Kind (unit_of q.1) (space q.1) (checked q.1), q.2)) <$> qs) n.
    Proof. revert f. induction qs as [|[k xs] qs IH]; intros f; [done|]. cbn. by rewrite IH. Qed.
    Lemma type_space e m : type_of ks e = Some m -> forall n, Spec.dimension eh (space m) n = space_exponents (fun i => occurs_to i e) env n.
    Proof using Hno Hdim Hds Henv.
      intros E n. revert m E. induction e as [i|a IHa b IHb|a IHa b IHb]; intros m E; cbn [type_of] in E.
      - rewrite list_lookup_fmap in E. destruct (env !! i) as [[k xs]|] eqn:Ei; [|done]. injection E as <-. rewrite space_exponents_as. cbn [occurs_to fst].
        erewrite exponents_var; [|rewrite list_lookup_fmap, Ei; reflexivity]. done.
      - destruct (type_of ks a) as [k|] eqn:Ea; [|done]. destruct (type_of ks b) as [l|] eqn:Eb; [|done]. cbn [mbind option_bind] in E.
        destruct (type_spec a k Ea) as ([Hk _] & _). destruct (type_spec b l Eb) as ([Hl _] & _).
        destruct (absolute_result k l m Hk Hl E) as (Hm & Dm & _). rewrite Dm, (IHa k), (IHb l), !space_exponents_as by done. cbn [occurs_to]. by rewrite exponents_add.
      - destruct (type_of ks a) as [k|] eqn:Ea; [|done]. destruct (type_of ks b) as [l|] eqn:Eb; [|done]. cbn [mbind option_bind] in E.
        destruct (type_spec a k Ea) as ([Hk _] & _). destruct (type_spec b l Eb) as ([Hl _] & _).
        destruct (absolute_result k (dual_kind l) m Hk (absolute_dual l Hl) E) as (Hm & Dm & _). rewrite Dm. cbn [space Model.dual_kind].
        destruct (half_dual eh vec half (space l)) as [_ D']; [apply Hl|]. rewrite D', (IHa k), (IHb l), !space_exponents_as by done. cbn [occurs_to]. rewrite exponents_sub. lia.
    Qed.

    Lemma expression_value e : scoped (length env) e ->
      eval env e = IllFormed \/
      exists k, eval env e = Gives k (Ok [worth (fun i => occurs_to i e) env]) /\ magnitude k [worth (fun i => occurs_to i e) env] /\
        forall n, dimension (unit_of k) n = exponents no_unit (fun i => occurs_to i e) env n.
    Proof using Hno Hdim Hds Henv.
      intros Hs. rewrite (eval_spec e Hs). destruct (type_of ks e) as [m|] eqn:E; [|by left]. right. exists m. split; [done|].
      destruct (type_spec e m E) as (Hm & Hp & Hd). split; [|done]. apply magnitude_split. split; [done|]. eexists. split; [reflexivity|done].
    Qed.
    Lemma expression_same e f k l r r' : scoped (length env) e -> scoped (length env) f -> same_monomial e f ->
      eval env e = Gives k r -> eval env f = Gives l r' -> space k = space l /\ unit_of k = unit_of l /\ r = r'.
    Proof using Hno Hdim Hds Henv.
      intros He Hf Hm. rewrite (eval_spec e He), (eval_spec f Hf). destruct (type_of ks e) as [k'|] eqn:Ee; [|done]. destruct (type_of ks f) as [l'|] eqn:Ef; [|done].
      intros H1 H2. injection H1 as <- <-. injection H2 as <- <-. destruct (type_spec e k' Ee) as ([Hk Pk] & _ & Dk). destruct (type_spec f l' Ef) as ([Hl Pl] & _ & Dl).
      split; [|split].
      - apply (dimension_unique eh validator_of); [done|done|]. intros n. rewrite (type_space e k' Ee), (type_space f l' Ef), !space_exponents_as. by apply exponents_ext.
      - apply (dimension_unique no_unit validator_of); [apply Hk|apply Hl|]. intros n. rewrite Dk, Dl. by apply exponents_ext.
      - do 2 f_equal. by apply worth_ext.
    Qed.

    (** *** When expressions are well-formed *)
    Lemma multiply_defined k l : absolute_kind k -> absolute_kind l -> (exists n, (dimension (unit_of k) n + dimension (unit_of l) n <> 0)%Z) ->
      exists u, multiply no_unit validator_of (unit_of k) (unit_of l) = Some u.
    Proof using Hno Hdim Hds.
      intros Hk Hl [n Hn]. unfold multiply. pose proof (ak_unit k Hk) as Pk. pose proof (ak_unit l Hl) as Pl.
      destruct (unit_cases no_unit validator_of _ Pl) as [-> |(Nl & Fl & Rl & El)]; [rewrite is_no_unit_refl; by eexists|]. rewrite Nl.
      destruct (unit_cases no_unit validator_of _ Pk) as [-> |(Nk & Fk & Rk & Ek)]; [rewrite is_no_unit_refl; by eexists|]. rewrite Nk.
      destruct (reduce_product_spec no_unit validator_of (unit_of k) (unit_of l)) as (r & Hpr & Hrr & He & _ & Hcons); try done.
      assert (r <> []) as Hr.
      { intros ->. apply Hn. rewrite !dimension_spec by done. rewrite <-He. done. }
      rewrite Hcons by done. destruct r as [|t [|t' r]]; [done|by eexists|]. unfold to_composite_unit. rewrite half_validators; [by eexists|done| |].
      - rewrite Forall_forall. intros x Hx. pose proof (exponent_nonzero x _ Hrr Hx) as Hnz. rewrite He in Hnz.
        pose proof (ak_units k Hk) as Uk. pose proof (ak_units l Hl) as Ul. rewrite Forall_forall in Uk, Ul.
        destruct (Z.eq_dec (exponent (name x) (factors (unit_of k))) 0) as [E|E].
        + destruct (exponent_member (name x) (factors (unit_of l))) as (y & Hy & <-); [lia|]. by apply Ul.
        + destruct (exponent_member _ _ E) as (y & Hy & <-). by apply Uk.
      - intros x Hx. rewrite Forall_forall in Hpr. by apply (proper_undisplaced no_unit), Hpr.
    Qed.

    Lemma expression_formed e : scoped (length env) e ->
      (forall e', e' ∈ nodes e -> exists n, exponents no_unit (fun i => occurs_to i e') env n <> 0%Z) -> exists k r, eval env e = Gives k r.
    Proof using Hno Hdim Hds Henv.
      intros Hs Hn. rewrite (eval_spec e Hs). assert (exists m, type_of ks e = Some m) as [m ->]; [|by eexists _, _].
      induction e as [i|a IHa b IHb|a IHa b IHb].
      - cbn in *. destruct (lookup_lt_is_Some_2 env i Hs) as [[k xs] Ei]. exists k. by rewrite list_lookup_fmap, Ei.
      - destruct Hs as [Ha Hb]. destruct IHa as [k Ek]; [done|intros; apply Hn; cbn; right; apply elem_of_app; by left|].
        destruct IHb as [l El]; [done|intros; apply Hn; cbn; right; apply elem_of_app; by right|].
        cbn [type_of]. rewrite Ek, El. cbn [mbind option_bind]. destruct (type_spec a k Ek) as ([Hk _] & _ & Dk). destruct (type_spec b l El) as ([Hl _] & _ & Dl).
        destruct (absolute_product k l Hk Hl) as (s & v & _ & _ & _ & _ & ->). destruct (multiply_defined k l Hk Hl) as [u ->]; [|by eexists].
        destruct (Hn (Mul a b)) as [n Hne]; [left|]. exists n. cbn [occurs_to] in Hne. rewrite exponents_add in Hne. by rewrite Dk, Dl.
      - destruct Hs as [Ha Hb]. destruct IHa as [k Ek]; [done|intros; apply Hn; cbn; right; apply elem_of_app; by left|].
        destruct IHb as [l El]; [done|intros; apply Hn; cbn; right; apply elem_of_app; by right|].
        cbn [type_of]. rewrite Ek, El. cbn [mbind option_bind]. destruct (type_spec a k Ek) as ([Hk _] & _ & Dk). destruct (type_spec b l El) as ([Hl _] & _ & Dl).
        pose proof (absolute_dual l Hl) as Hl'. destruct (absolute_product k (dual_kind l) Hk Hl') as (s & v & _ & _ & _ & _ & ->).
        destruct (multiply_defined k (dual_kind l) Hk Hl') as [u ->]; [|by eexists].
        destruct (Hn (Div a b)) as [n Hne]; [left|]. exists n. cbn [occurs_to] in Hne. rewrite exponents_sub in Hne. rewrite Dk. cbn [unit_of Model.dual_kind].
        destruct (dual_spec no_unit validator_of (unit_of l)) as (_ & D & _); [apply Hl|]. rewrite D, Dl. lia.
    Qed.
  End env.

  (** *** Other units *)
  Section rescale.
    Context (σ : nat -> Qc).
    Hypotheses (Hσ : forall n, (0 < σ n)%Qc) (Hone : σ no_unit = 1%Qc).

    Lemma scale_pos ts : (0 < scale_of σ ts)%Qc.
    Proof using Hσ.
      induction ts as [|t ts IH]; [by vm_compute|]. cbn [scale_of]. apply pos_times; [|done]. unfold power. destruct (is_dual t).
      - cbn. change (Pos.to_nat 1) with 1%nat. apply pos_inverse. cbn. rewrite Qcmult_1_r. done.
      - cbn. change (Pos.to_nat 1) with 1%nat. cbn. rewrite Qcmult_1_r. done.
    Qed.
    Lemma rescaled_magnitude q : magnitude q.1 q.2 -> magnitude (rescaled σ q).1 (rescaled σ q).2.
    Proof using Hσ.
      rewrite !magnitude_split. intros (Hk & x & Ex & Hx). split; [done|]. unfold rescaled. rewrite Ex. cbn. eexists. split; [done|]. apply pos_times; [done|apply scale_pos].
    Qed.
    Lemma rescaled_kinds env : (rescaled σ <$> env).*1 = env.*1.
    Proof. induction env as [|q env IH]; [done|]. cbn. by f_equal. Qed.

    Lemma rescale_expression env e : Forall (fun q => magnitude q.1 q.2) env -> scoped (length env) e -> forall k x,
      eval env e = Gives k (Ok [x]) -> eval (rescaled σ <$> env) e = Gives k (Ok [(x * scale_of σ (factors (unit_of k)))%Qc]).
    Proof using Hno Hdim Hds Hσ Hone.
      intros Henv Hs k x. assert (Forall (fun q => magnitude q.1 q.2) (rescaled σ <$> env)) as Henv'.
      { rewrite Forall_fmap. eapply Forall_impl; [exact Henv|]. intros q Hq. by apply rescaled_magnitude. }
      rewrite (eval_spec env Henv e Hs), (eval_spec _ Henv' e) by (by rewrite fmap_length). rewrite rescaled_kinds.
      destruct (type_of env.*1 e) as [m|] eqn:E; [|done]. intros H. injection H as <- <-. do 3 f_equal.
      assert (forall n, σ n <> 0%Qc) as Hnz by (intros n; by apply pos_nonzero).
      pose proof (env_single env Henv) as S1. pose proof (env_single _ Henv') as S2.
      clear Hs. revert m E. induction e as [i|a IHa b IHb|a IHa b IHb]; intros m E; cbn [type_of] in E.
      - rewrite list_lookup_fmap in E. destruct (env !! i) as [[k xs]|] eqn:Ei; [|done]. injection E as <-. pose proof (proj1 (Forall_lookup _ _) Henv i _ Ei) as H. cbn in H.
        apply magnitude_split in H as (_ & x & -> & Hx). cbn [occurs_to fst].
        rewrite (worth_var i env k x S1 Ei). rewrite (worth_var i (rescaled σ <$> env) k (x * scale_of σ (factors (unit_of k)))%Qc S2); [done|]. by rewrite list_lookup_fmap, Ei.
      - destruct (type_of env.*1 a) as [k|] eqn:Ea; [|done]. destruct (type_of env.*1 b) as [l|] eqn:Eb; [|done]. cbn [mbind option_bind] in E.
        destruct (type_spec env Henv a k Ea) as ([Hk _] & _). destruct (type_spec env Henv b l Eb) as ([Hl _] & _).
        destruct (absolute_result k l m Hk Hl E) as (_ & _ & Dm). cbn [occurs_to]. rewrite !worth_add, (IHa k), (IHb l) by done.
        rewrite (scale_combined no_unit σ Hnz Hone (unit_of k) (unit_of l) (unit_of m) Dm). ring.
      - destruct (type_of env.*1 a) as [k|] eqn:Ea; [|done]. destruct (type_of env.*1 b) as [l|] eqn:Eb; [|done]. cbn [mbind option_bind] in E.
        destruct (type_spec env Henv a k Ea) as ([Hk _] & _). destruct (type_spec env Henv b l Eb) as ([Hl _] & Pl & _).
        destruct (absolute_result k (dual_kind l) m Hk (absolute_dual l Hl) E) as (_ & _ & Dm). cbn [occurs_to]. rewrite !worth_sub, (IHa k), (IHb l) by done.
        rewrite (scale_combined no_unit σ Hnz Hone (unit_of k) (unit_of (dual_kind l)) (unit_of m) Dm). cbn [unit_of Model.dual_kind].
        destruct (dual_spec no_unit validator_of (unit_of l)) as (_ & D & _); [apply Hl|]. rewrite (scale_opposite no_unit σ Hnz Hone (unit_of l) _ D).
        field. split; [by apply scale_nonzero|by apply pos_nonzero].
    Qed.
  End rescale.

  (** ** Ratios *)
  Lemma ratio k x l y : magnitude k [x] -> magnitude l [y] -> space k = space l -> unit_of k = unit_of l ->
    ((forall t u, t ∈ factors (unit_of k) -> u ∈ factors (unit_of k) -> name t = name u) ->
       exists v, over k [x] l [y] = Gives (Kind (Single (Base eh)) (Single (Base no_unit)) v) (Ok [(x / y)%Qc])) /\
    (~ (forall t u, t ∈ factors (unit_of k) -> u ∈ factors (unit_of k) -> name t = name u) -> over k [x] l [y] = IllFormed).
  Proof using Hno Hdim Hds.
    intros (Hk & x' & Ex & Hx)%magnitude_split (Hl & y' & Ey & Hy)%magnitude_split Es Eu. injection Ex as <-. injection Ey as <-.
    rewrite (magnitude_over k x l y) by done. destruct Hk as [Hk Pk]. destruct Hl as [Hl Pl].
    destruct (absolute_product k (dual_kind l) Hk (absolute_dual l Hl)) as (s & v & Hs & Ps & Ds & Hv & ->). cbn [unit_of space Model.dual_kind] in *.
    assert (s = Single (Base eh)) as ->.
    { apply (dimension_unique eh validator_of); [done|by left|]. intros n. rewrite Ds, <-Es. destruct (half_dual eh vec half (space k)) as [_ ->]; [apply Hk|].
      rewrite dimension_no_unit. lia. }
    destruct (ratio_spec no_unit validator_of (unit_of k)) as [R1 R2]; [apply Hk|]. rewrite divide_spec in R1, R2 by apply Hk. rewrite <-Eu.
    split; intros H; [rewrite (R1 H)|rewrite (R2 H)]; [by exists v|done].
  Qed.
End quantities.
