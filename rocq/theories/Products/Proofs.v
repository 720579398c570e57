From stdpp Require Import list sets sorting.
From Coq Require Import ZArith.
From Verif.Base Require Import Outcome Order ListLemmas.
From Verif.Meta Require Import Spec Proofs.
From Verif.Meta Require Model.
From Verif.Products Require Import Model Spec.

(** ** The comparator *)
Definition key (t : ty) : nat :=
  match t with
  | Base n => 4 * n
  | Ads (Base n) => 4 * n + 1
  | Dual (Base n) => 4 * n + 2
  | Dual (Ads (Base n)) => 4 * n + 3
  | _ => 0
  end.
Definition key_less (a b : ty) : bool := Nat.ltb (key a) (key b).

Lemma key_inj a b : simple a = true -> simple b = true -> key a = key b -> a = b.
Proof.
  intros Ha Hb. destruct a as [n|[n| |]|[n|[n| |]|]]; try discriminate Ha;
    destruct b as [m|[m| |]|[m|[m| |]|]]; try discriminate Hb; cbn [key]; intros E; repeat f_equal; lia.
Qed.

Lemma key_name a b : simple a = true -> simple b = true -> key a <= key b -> name a <= name b.
Proof.
  intros Ha Hb. destruct a as [n|[n| |]|[n|[n| |]|]]; try discriminate Ha;
    destruct b as [m|[m| |]|[m|[m| |]|]]; try discriminate Hb; cbn [key name]; lia.
Qed.

Lemma name_key a b : simple a = true -> simple b = true -> name a < name b -> key a < key b.
Proof.
  intros Ha Hb. destruct a as [n|[n| |]|[n|[n| |]|]]; try discriminate Ha;
    destruct b as [m|[m| |]|[m|[m| |]|]]; try discriminate Hb; cbn [key name]; lia.
Qed.

Ltac run E := lazy in E; lazy -[Z.add Z.sub]; repeat (progress rewrite !E; lazy -[Z.add Z.sub]).

Lemma comparator_spec a b :
  simple a = true -> simple b = true -> clash a b = false -> comparator a b = Some (key_less a b).
Proof.
  intros Ha Hb Hc.
  destruct (Nat.eqb_spec (name a) (name b)) as [E|E].
  - clear Hc. destruct a as [n|[n| |]|[n|[n| |]|]]; try discriminate Ha;
      destruct b as [m|[m| |]|[m|[m| |]|]]; try discriminate Hb; cbn in E; subst m; unfold key_less; cbn [key].
    all: match goal with |- _ = Some ?r => assert (exists v, r = v) as [v Ev] by (eexists; reflexivity); rewrite Ev end.
    all: pose proof (Nat.eqb_refl n) as E; run E.
    all: subst v; f_equal.
    all: try (symmetry; (apply Nat.ltb_lt || apply Nat.ltb_ge); lia).
    all: rewrite Nat.ltb_irrefl; exact (Nat.ltb_irrefl n).
  - apply Nat.eqb_neq in E. unfold clash in Hc. rewrite E in Hc. cbn [negb andb] in Hc.
    destruct a as [n|[n| |]|[n|[n| |]|]]; try discriminate Ha;
      destruct b as [m|[m| |]|[m|[m| |]|]]; try discriminate Hb; try discriminate Hc; cbn [name] in E;
      unfold key_less; cbn [key].
    all: match goal with |- _ = Some ?r => assert (r = Nat.ltb n m) as -> end.
    all: try (apply Nat.eqb_neq in E; destruct (Nat.ltb_spec n m); (apply Nat.ltb_lt || apply Nat.ltb_ge); lia).
    all: run E; reflexivity.
Qed.

(** ** Merging *)
Section merging.
  Context {A : Type} (ocomp : A -> A -> option bool) (comp : A -> A -> bool).

  Definition agree (l : list A) : Prop := forall x y, x ∈ l -> y ∈ l -> ocomp x y = Some (comp x y).

  Lemma agree_sub l k : agree l -> (forall x, x ∈ k -> x ∈ l) -> agree k.
  Proof. intros H Hs x y Hx Hy. apply H; by apply Hs. Qed.

  Lemma lower_bound_get_agree fuel ts u lower upper :
    agree (u :: ts) ->
    lower_bound_get ocomp fuel ts u lower upper = Meta.Model.lower_bound_get comp fuel ts u lower upper.
  Proof.
    intros Ha. revert lower upper. induction fuel as [|fuel IH]; intros lower upper; [done|].
    cbn [lower_bound_get Meta.Model.lower_bound_get]. case_decide; [done|].
    destruct (ts !! _) as [t|] eqn:E; [|done].
    rewrite Ha by (rewrite ?elem_of_cons; eauto using elem_of_list_lookup_2). cbn [mbind option_bind].
    destruct (comp t u); apply IH.
  Qed.

  Lemma drop_types_sub (l k : list A) n : Meta.Model.drop_types l n = Some k -> forall x, x ∈ k -> x ∈ l.
  Proof.
    rewrite drop_types_spec. intros [= <-] x Hx. apply elem_of_list_lookup in Hx as [i Hi].
    rewrite lookup_drop in Hi. by eapply elem_of_list_lookup_2.
  Qed.
  Lemma insert_type_sub (l k : list A) t n :
    Meta.Model.insert_type l t n = Some k -> forall x, x ∈ k -> x = t \/ x ∈ l.
  Proof.
    destruct (decide (n <= length l)) as [Hn|Hn].
    - rewrite insert_type_spec, decide_True by done. intros [= <-] x Hx.
      apply elem_of_app in Hx as [Hx|Hx]; [right|apply elem_of_cons in Hx as [Hx|Hx]; [by left|right]].
      + rewrite <- (take_drop n l). set_unfold. auto.
      + rewrite <- (take_drop n l). set_unfold. auto.
    - by rewrite insert_type_spec, decide_False.
  Qed.

  Lemma merge_one_agree t us i :
    agree (t :: us) -> merge_one ocomp t us i = Meta.Model.merge_one comp t us i.
  Proof.
    intros Ha. unfold merge_one, Meta.Model.merge_one.
    destruct (Meta.Model.drop_types us i) as [d|] eqn:E; [|done]. cbn [mbind option_bind].
    unfold lower_bound, Meta.Model.lower_bound. rewrite lower_bound_get_agree; [done|].
    eapply agree_sub; [exact Ha|]. intros x Hx. apply elem_of_cons in Hx as [-> |Hx]; [left|].
    right. eapply drop_types_sub; eauto.
  Qed.

  Lemma merge_from_position_agree ts us i :
    agree (ts ++ us) -> merge_from_position ocomp ts us i = Meta.Model.merge_from_position comp ts us i.
  Proof.
    revert us i. induction ts as [|t ts IH]; intros us i Ha; [done|].
    cbn [merge_from_position Meta.Model.merge_from_position].
    assert (agree (t :: us)) as Ha1.
    { eapply agree_sub; [exact Ha|]. intros x Hx. set_unfold. tauto. }
    destruct ts as [|t' ts]; [by rewrite merge_one_agree|].
    rewrite merge_one_agree by done. destruct (Meta.Model.merge_one comp t us 0) as [[us' j]|] eqn:E; [|done].
    cbn [mbind option_bind fst snd]. apply IH. eapply agree_sub; [exact Ha|]. intros x Hx.
    apply elem_of_app in Hx as [Hx|Hx]; [set_unfold; tauto|].
    unfold Meta.Model.merge_one in E.
    destruct (Meta.Model.drop_types us 0) as [d|]; [|done]. cbn [mbind option_bind] in E.
    destruct (Meta.Model.lower_bound comp d t) as [lb|]; [|done]. cbn [mbind option_bind] in E.
    destruct (Meta.Model.insert_type us t (0 + lb)) as [us''|] eqn:Ei; [|done]. cbn [mbind option_bind] in E.
    injection E as <- <-. apply (insert_type_sub _ _ _ _ Ei) in Hx as [-> |Hx]; set_unfold; tauto.
  Qed.

  Lemma merge_types_agree ts us :
    agree (ts ++ us) -> merge_types ocomp ts us = Meta.Model.merge_types comp ts us.
  Proof.
    intros Ha. unfold merge_types, Meta.Model.merge_types.
    destruct us as [|u us]; [done|]. destruct ts as [|t [|t' ts]]; [done| |by rewrite merge_from_position_agree].
    destruct us as [|u' us]; [|by rewrite merge_from_position_agree].
    rewrite Ha by set_solver. cbn [mbind option_bind]. by destruct (comp t u).
  Qed.

  Context (sw : strict_weak comp).

  Lemma merge_types_ok ts us :
    agree (ts ++ us) -> sorted_by comp ts -> sorted_by comp us ->
    exists l, merge_types ocomp ts us = Some l /\ l ≡ₚ ts ++ us /\ sorted_by comp l.
  Proof. intros Ha Hts Hus. rewrite merge_types_agree by done. by apply merge_types_spec. Qed.

  Lemma stable_sort_types_ok fuel ts :
    agree ts -> length ts < fuel ->
    exists l, stable_sort_types ocomp fuel ts = Some l /\ l ≡ₚ ts /\ sorted_by comp l.
  Proof.
    revert ts. induction fuel as [|fuel IH]; intros ts Ha Hf; [lia|]. cbn [stable_sort_types].
    assert (sorted_by comp (@nil A)) as Hnil by done.
    destruct ts as [|t [|t' ts]].
    - by exists [].
    - exists [t]. split; [done|]. split; [done|]. intros [|i] [|j] x y Hij Hi Hj; try lia; done.
    - set (l0 := t :: t' :: ts) in *. rewrite keep_types_spec, drop_types_spec. cbn [mbind option_bind].
      assert (2 <= length l0) as Hl by (cbn; lia).
      destruct (IH (take (length l0 / 2) l0)) as (l & -> & Hpl & Hsl).
      { eapply agree_sub; [exact Ha|]. intros x Hx. rewrite <- (take_drop (length l0 / 2) l0).
        apply elem_of_app. by left. }
      { rewrite take_length; lia. }
      destruct (IH (drop (length l0 / 2) l0)) as (r & -> & Hpr & Hsr).
      { eapply agree_sub; [exact Ha|]. intros x Hx. rewrite <- (take_drop (length l0 / 2) l0).
        apply elem_of_app. by right. }
      { rewrite drop_length; lia. }
      cbn [mbind option_bind].
      destruct (merge_types_ok l r) as (m & -> & Hm & Hsm); try done.
      { eapply agree_sub; [exact Ha|]. intros x Hx. rewrite Hpl, Hpr, take_drop in Hx. exact Hx. }
      exists m. split; [done|]. split; [|done]. rewrite Hm, Hpl, Hpr. by rewrite take_drop.
  Qed.
  Lemma stable_sort_ok ts :
    agree ts -> exists l, stable_sort ocomp ts = Some l /\ l ≡ₚ ts /\ sorted_by comp l.
  Proof. intros Ha. apply stable_sort_types_ok; [done|lia]. Qed.
End merging.

(** ** Counting *)
(** What becomes of the factors of one name: the displacements if there are any among them, and the
    dual only if there are no others. *)
Definition at_name (n : nat) (p : ty -> bool) (l : list ty) : bool :=
  existsb (fun t => Nat.eqb (name t) n && p t) l.
Definition kind (n : nat) (l : list ty) : ty :=
  let v := at_name n displacement l in
  if at_name n (fun t => negb (is_dual t)) l then (if v then Ads (Base n) else Base n)
  else (if v then Dual (Ads (Base n)) else Dual (Base n)).


Definition join_kinds (k s : ty) : ty :=
  let v := displacement k || displacement s in
  if is_dual k then (if v then Dual (Ads (Base (name k))) else Dual (Base (name k)))
  else (if v then Ads (Base (name k)) else Base (name k)).

(** What may come after [k] in order. *)
Definition may_follow (k s : ty) : bool :=
  match s with
  | Base _ => match k with Base _ => true | _ => false end
  | Ads _ => match k with Base _ | Ads _ => true | _ => false end
  | Dual (Base _) => match k with Dual (Ads _) => false | _ => true end
  | _ => true
  end.

Lemma combine_at k s i rest :
  simple k = true -> simple s = true -> name k = name s -> may_follow k s = true ->
  combine ((k, i) :: rest) s = Some ((join_kinds k s, if is_dual k then (i + 1)%Z else (i + power s)%Z) :: rest).
Proof.
  intros Hk Hs Hn Hf.
  destruct k as [n|[n| |]|[n|[n| |]|]]; try discriminate Hk;
    destruct s as [m|[m| |]|[m|[m| |]|]]; try discriminate Hs; try discriminate Hf; cbn in Hn; subst m.
  all: pose proof (Nat.eqb_refl n) as E; run E; reflexivity.
Qed.

Lemma combine_new k s i rest :
  simple k = true -> simple s = true -> name k <> name s ->
  combine ((k, i) :: rest) s = Some ((s, 1%Z) :: (k, i) :: rest).
Proof.
  intros Hk Hs Hn.
  destruct k as [n|[n| |]|[n|[n| |]|]]; try discriminate Hk;
    destruct s as [m|[m| |]|[m|[m| |]|]]; try discriminate Hs; cbn in Hn.
  all: assert (Nat.eqb n m = false) as E by (by apply Nat.eqb_neq); assert (Nat.eqb m n = false) as E' by (apply Nat.eqb_neq; congruence).
  all: lazy in E, E'; lazy -[Z.add Z.sub]; repeat (progress rewrite ?E, ?E'; lazy -[Z.add Z.sub]); reflexivity.
Qed.

Lemma exponent_app n l k : exponent n (l ++ k) = (exponent n l + exponent n k)%Z.
Proof. induction l as [|t l IH]; cbn; [lia|]. rewrite IH. lia. Qed.

Lemma at_name_app n p l k : at_name n p (l ++ k) = at_name n p l || at_name n p k.
Proof. unfold at_name. by rewrite existsb_app. Qed.

Lemma at_name_true n p l : at_name n p l = true <-> exists t, t ∈ l /\ name t = n /\ p t = true.
Proof.
  unfold at_name. rewrite existsb_exists. split.
  - intros (t & Ht & H). apply andb_true_iff in H as [H1 H2]. apply Nat.eqb_eq in H1.
    exists t. by rewrite elem_of_list_In.
  - intros (t & Ht & H1 & H2). exists t. rewrite <- elem_of_list_In. split; [done|].
    rewrite H2, (proj2 (Nat.eqb_eq _ _) H1). done.
Qed.

Lemma kind_name n l : name (kind n l) = n.
Proof. unfold kind. by destruct (at_name _ _ _), (at_name _ _ _). Qed.
Lemma kind_simple n l : simple (kind n l) = true.
Proof. unfold kind. by destruct (at_name _ _ _), (at_name _ _ _). Qed.

Lemma kind_new n l s : (forall t, t ∈ l -> name t <> n) -> simple s = true -> name s = n -> kind n (l ++ [s]) = s.
Proof.
  intros Hl Hs Hn. unfold kind. rewrite !at_name_app.
  assert (forall p, at_name n p l = false) as H.
  { intros p. apply not_true_iff_false. rewrite at_name_true. intros (t & Ht & Hn' & _). by apply (Hl t). }
  rewrite !H. unfold at_name. cbn. rewrite (proj2 (Nat.eqb_eq _ _) Hn).
  by destruct s as [m|[m| |]|[m|[m| |]|]]; try discriminate Hs; cbn in *; subst m.
Qed.

Lemma kind_other n l s : name s <> n -> kind n (l ++ [s]) = kind n l.
Proof.
  intros Hn. unfold kind. rewrite !at_name_app. unfold at_name at 2 4. cbn.
  apply Nat.eqb_neq in Hn. rewrite Hn. cbn. by rewrite !orb_false_r.
Qed.

Lemma kind_at n l s :
  (exists t, t ∈ l /\ name t = n) -> (forall t, t ∈ l -> key t <= key s) -> (forall t, t ∈ l -> simple t = true) ->
  simple s = true -> name s = n ->
  may_follow (kind n l) s = true /\ kind n (l ++ [s]) = join_kinds (kind n l) s /\
  (is_dual (kind n l) = true -> is_dual s = true).
Proof.
  intros (t0 & Ht0 & Hn0) Hle Hsl Hs Hn.
  assert (forall t, t ∈ l -> name t = n ->
    match s with Base _ => t = Base n | Ads _ => t = Base n \/ t = Ads (Base n)
    | Dual (Base _) => t <> Dual (Ads (Base n)) | _ => True end) as Hwhat.
  { intros t Ht Htn; specialize (Hle t Ht); specialize (Hsl t Ht).
    destruct s as [m|[m| |]|[m|[m| |]|]]; try discriminate Hs;
      destruct t as [m'|[m'| |]|[m'|[m'| |]|]]; try discriminate Hsl; cbn in *; subst; try done; try lia;
      try (by left); by right. }
  unfold kind. rewrite !at_name_app.
  set (b1 := at_name n (fun t => negb (is_dual t)) l). set (b2 := at_name n displacement l).
  assert (match s with Base _ => b1 = true /\ b2 = false | Ads _ => b1 = true
          | Dual (Base _) => b1 = false -> b2 = false | _ => True end) as Hb.
  { pose proof (Hwhat t0 Ht0 Hn0) as H0.
    assert (is_dual t0 = false -> b1 = true) as Hb1.
    { intros Hd. apply at_name_true. exists t0. rewrite Hd. done. }
    destruct s as [m|[m| |]|[m|[m| |]|]]; try discriminate Hs; try done.
    - subst t0. split; [by apply Hb1|]. apply not_true_iff_false. unfold b2. rewrite at_name_true.
      intros (t & Ht & Htn & Hd). by rewrite (Hwhat t Ht Htn) in Hd.
    - apply Hb1. by destruct H0 as [-> | ->].
    - intros Hf. apply not_true_iff_false. unfold b2. rewrite at_name_true. intros (t & Ht & Htn & Hd).
      assert (is_dual t = true) as Hdt.
      { destruct (is_dual t) eqn:E; [done|]. exfalso. revert Hf. apply not_false_iff_true, at_name_true.
        exists t. by rewrite E. }
      pose proof (Hwhat t Ht Htn) as Hne. specialize (Hsl t Ht).
      destruct t as [m'|[m'| |]|[m'|[m'| |]|]]; try discriminate Hsl; cbn in *; subst; done. }
  unfold at_name. cbn [existsb]. rewrite (proj2 (Nat.eqb_eq _ _) Hn). cbn [andb].
  destruct s as [m|[m| |]|[m|[m| |]|]]; try discriminate Hs; cbn in Hn; subst m.
  - destruct Hb as [-> ->]. done.
  - rewrite Hb. by destruct b2.
  - destruct b1; [by destruct b2|]. by rewrite Hb.
  - by destruct b1, b2.
Qed.

Record counted (l : list ty) (acc : counters) : Prop := {
  counted_sorted : StronglySorted (fun a b => name b.1 < name a.1) acc;
  counted_entry : forall c, c ∈ acc -> c.1 = kind (name c.1) l /\ c.2 = (power c.1 * exponent (name c.1) l)%Z;
  counted_all : forall t, t ∈ l -> exists c, c ∈ acc /\ name c.1 = name t;
  counted_only : forall c, c ∈ acc -> exists t, t ∈ l /\ name t = name c.1
}.

Lemma exponent_zero n l : (forall t, t ∈ l -> name t <> n) -> exponent n l = 0%Z.
Proof.
  induction l as [|t l IH]; intros H; [done|]. cbn.
  rewrite (proj2 (Nat.eqb_neq _ _) (H t ltac:(left))). rewrite IH; [done|]. intros t' Ht'. apply H. by right.
Qed.

Lemma counted_step l acc s :
  counted l acc -> (forall t, t ∈ l -> simple t = true) -> simple s = true ->
  (forall t, t ∈ l -> key t <= key s) ->
  exists acc', combine acc s = Some acc' /\ counted (l ++ [s]) acc'.
Proof.
  intros [Hsort Hent Hall Honly] Hsl Hs Hle.
  assert (forall n, exponent n [s] = if Nat.eqb (name s) n then power s else 0%Z) as Hexp1.
  { intros n. cbn. by rewrite Z.add_0_r. }
  destruct acc as [|[k i] rest].
  - assert (l = []) as ->.
    { destruct l as [|t l]; [done|]. destruct (Hall t ltac:(left)) as (c & Hc & _). by apply elem_of_nil in Hc. }
    exists [(s, 1%Z)]. split; [done|]. split.
    + repeat constructor.
    + intros c Hc. apply elem_of_list_singleton in Hc as ->. cbn [fst snd app].
      split; [symmetry; apply (kind_new _ []); try done; intros t Ht; by apply elem_of_nil in Ht|].
      rewrite Hexp1, Nat.eqb_refl. unfold power. by destruct (is_dual s).
    + intros t Ht. apply elem_of_list_singleton in Ht as ->. exists (s, 1%Z). by split; [left|].
    + intros c Hc. apply elem_of_list_singleton in Hc as ->. exists s. by split; [left|].
  - destruct (Hent (k, i) ltac:(left)) as [Hk Hi]. cbn [fst snd] in Hk, Hi.
    assert (simple k = true) as Hks by (rewrite Hk; apply kind_simple).
    apply StronglySorted_inv in Hsort as [Hsort Hhead]. rewrite Forall_forall in Hhead.
    assert (forall t, t ∈ l -> name t <= name k) as Hmax.
    { intros t Ht. destruct (Hall t Ht) as (c & Hc & Hcn). apply elem_of_cons in Hc as [-> |Hc]; [cbn in Hcn; lia|].
      specialize (Hhead c Hc). cbn in Hhead. lia. }
    destruct (Honly (k, i) ltac:(left)) as (tk & Htk & Htkn). cbn [fst] in Htkn.
    assert (name k <= name s) as Hks'.
    { rewrite <- Htkn. apply key_name; [by apply Hsl|done|]. by apply Hle. }
    destruct (decide (name k = name s)) as [E|E].
    + destruct (kind_at (name s) l s) as (Hf & Hj & Hd); try done.
      { exists tk. split; [done|congruence]. }
      rewrite <- E in Hf, Hj, Hd. rewrite <- Hk in Hf, Hj, Hd.
      rewrite combine_at by done. eexists. split; [reflexivity|].
      assert (name (join_kinds k s) = name k) as Hjn by (unfold join_kinds; by destruct (is_dual k), (_ || _)).
      assert (is_dual (join_kinds k s) = is_dual k) as Hjd by (unfold join_kinds; by destruct (is_dual k), (_ || _)).
      split.
      * constructor; [done|]. rewrite Forall_forall. intros c Hc. cbn [fst]. rewrite Hjn. by apply (Hhead c).
      * intros c Hc. apply elem_of_cons in Hc as [-> |Hc]; cbn [fst snd].
        -- rewrite Hjn. split; [done|]. rewrite exponent_app, Hexp1.
           rewrite (proj2 (Nat.eqb_eq (name s) (name k))) by done. unfold power at 2. rewrite Hjd. rewrite Hi.
           unfold power in *. destruct (is_dual k); [rewrite (Hd eq_refl); lia|lia].
        -- pose proof (Hhead c Hc) as Hc'. cbn in Hc'. destruct (Hent c ltac:(by right)) as [H1 H2].
           rewrite kind_other by lia. split; [done|]. rewrite exponent_app, Hexp1.
           rewrite (proj2 (Nat.eqb_neq (name s) (name c.1))) by lia. lia.
      * intros t Ht. apply elem_of_app in Ht as [Ht|Ht].
        -- destruct (Hall t Ht) as (c & Hc & Hcn). apply elem_of_cons in Hc as [-> |Hc].
           ++ eexists. split; [left|]. cbn [fst] in *. congruence.
           ++ exists c. split; [by right|done].
        -- apply elem_of_list_singleton in Ht as ->. eexists. split; [left|]. cbn [fst]. congruence.
      * intros c Hc. apply elem_of_cons in Hc as [-> |Hc].
        -- exists s. split; [set_solver|]. cbn [fst]. congruence.
        -- destruct (Honly c ltac:(by right)) as (t & Ht & Htn). exists t. split; [set_solver|done].
    + rewrite combine_new by done. eexists. split; [reflexivity|].
      assert (forall t, t ∈ l -> name t <> name s) as Hnew by (intros t Ht; specialize (Hmax t Ht); lia).
      split.
      * constructor; [constructor; [done|by rewrite Forall_forall]|]. rewrite Forall_forall. intros c Hc. cbn [fst].
        apply elem_of_cons in Hc as [-> |Hc]; [cbn; lia|]. specialize (Hhead c Hc). cbn in Hhead. lia.
      * intros c Hc. apply elem_of_cons in Hc as [-> |Hc]; cbn [fst snd].
        -- rewrite kind_new by done. split; [done|]. rewrite exponent_app, Hexp1, Nat.eqb_refl.
           rewrite exponent_zero by done. unfold power. by destruct (is_dual s).
        -- assert (name c.1 <= name k) as Hc'.
           { apply elem_of_cons in Hc as [-> |Hc]; [done|]. specialize (Hhead c Hc). cbn in Hhead. lia. }
           destruct (Hent c Hc) as [H1 H2]. rewrite kind_other by lia. split; [done|].
           rewrite exponent_app, Hexp1. rewrite (proj2 (Nat.eqb_neq (name s) (name c.1))) by lia. lia.
      * intros t Ht. apply elem_of_app in Ht as [Ht|Ht].
        -- destruct (Hall t Ht) as (c & Hc & Hcn). exists c. split; [by right|done].
        -- apply elem_of_list_singleton in Ht as ->. eexists. split; [left|done].
      * intros c Hc. apply elem_of_cons in Hc as [-> |Hc].
        -- exists s. split; [set_solver|done].
        -- destruct (Honly c Hc) as (t & Ht & Htn). exists t. split; [set_solver|done].
Qed.

Lemma count_and_combine_spec l :
  (forall t, t ∈ l -> simple t = true) -> sorted_by key_less l ->
  exists acc, count_and_combine l = Some acc /\ counted l acc.
Proof.
  intros Hsl Hsort.
  assert (forall rest pre acc, l = pre ++ rest -> counted pre acc ->
    exists acc', combine_all acc rest = Some acc' /\ counted l acc') as H.
  { induction rest as [|s rest IH]; intros pre acc Hl Hc.
    - rewrite app_nil_r in Hl. subst pre. by exists acc.
    - destruct (counted_step pre acc s) as (acc' & E & Hc'); try done.
      + intros t Ht. apply Hsl. rewrite Hl. set_solver.
      + apply Hsl. rewrite Hl. set_solver.
      + intros t Ht. apply elem_of_list_lookup in Ht as [i Hi].
        assert (key_less s t = false) as Hf.
        { apply (Hsort i (length pre)).
          - by apply lookup_lt_Some in Hi.
          - rewrite Hl. by apply lookup_app_l_Some.
          - rewrite Hl. by apply list_lookup_middle. }
        unfold key_less in Hf. apply Nat.ltb_ge in Hf. done.
      + cbn [combine_all]. rewrite E. cbn [mbind option_bind]. apply (IH (pre ++ [s])); [|done].
        by rewrite <- app_assoc. }
  apply (H l [] []); [done|]. split; [constructor|..]; intros x Hx; by apply elem_of_nil in Hx.
Qed.

(** ** Unpacking *)
(** The factor which stands for all those of name [n]. *)
Definition out (n : nat) (l : list ty) : ty :=
  let v := if at_name n displacement l then Ads (Base n) else Base n in
  if (0 <=? exponent n l)%Z then v else Dual v.

Lemma out_name n l : name (out n l) = n.
Proof. unfold out. by destruct (0 <=? _)%Z, (at_name _ _ _). Qed.
Lemma out_simple n l : simple (out n l) = true.
Proof. unfold out. by destruct (0 <=? _)%Z, (at_name _ _ _). Qed.
Lemma out_power n l : exponent n l <> 0%Z -> (power (out n l) * Z.abs (exponent n l) = exponent n l)%Z.
Proof. unfold out, power. intros H. destruct (Z.leb_spec 0 (exponent n l)), (at_name _ _ _); cbn; lia. Qed.

Lemma exponent_negative n l :
  (forall t, t ∈ l -> name t = n -> is_dual t = true) -> (exists t, t ∈ l /\ name t = n) ->
  (exponent n l < 0)%Z.
Proof.
  assert (forall l', (forall t, t ∈ l' -> name t = n -> is_dual t = true) -> (exponent n l' <= 0)%Z) as Hle.
  { induction l' as [|t l' IH]; intros H; [done|]. cbn.
    specialize (IH ltac:(intros; apply H; [by right|done])).
    destruct (Nat.eqb_spec (name t) n) as [E|E]; [|lia]. unfold power. rewrite (H t); [lia|left|done]. }
  induction l as [|t l IH]; intros H (t0 & Ht0 & Hn0); [by apply elem_of_nil in Ht0|]. cbn.
  destruct (Nat.eqb_spec (name t) n) as [E|E].
  - unfold power. rewrite (H t) by (try left; done). specialize (Hle l ltac:(intros; apply H; [by right|done])). lia.
  - rewrite Z.add_0_l. apply IH; [intros; apply H; [by right|done]|]. exists t0. split; [|done].
    apply elem_of_cons in Ht0 as [-> |Ht0]; [done|done].
Qed.

Lemma kind_dual_negative n l : (exists t, t ∈ l /\ name t = n) -> is_dual (kind n l) = true -> (exponent n l < 0)%Z.
Proof.
  intros Hex Hd. apply exponent_negative; [|done]. intros t Ht Hn. destruct (is_dual t) eqn:E; [done|].
  exfalso. unfold kind in Hd.
  assert (at_name n (fun t => negb (is_dual t)) l = true) as H.
  { apply at_name_true. exists t. by rewrite E. }
  rewrite H in Hd. by destruct (at_name _ _ _).
Qed.

Lemma unpack_one_spec l acc c :
  counted l acc -> c ∈ acc ->
  unpack_one c = Some (replicate (Z.to_nat (Z.abs (exponent (name c.1) l))) (out (name c.1) l)).
Proof.
  intros [_ Hent _ Honly] Hc. destruct (Hent c Hc) as [Hk Hi]. specialize (Honly c Hc).
  destruct c as [k i]. cbn [fst snd] in *. set (n := name k) in *. unfold unpack_one. cbn [fst snd].
  pose proof (kind_dual_negative n l Honly) as Hneg. rewrite <- Hk in Hneg.
  unfold out. destruct (is_dual k) eqn:E.
  - specialize (Hneg eq_refl). unfold power in Hi. rewrite E in Hi.
    rewrite (proj2 (Z.leb_le 0 i)) by lia. rewrite (proj2 (Z.leb_gt 0 _)) by lia.
    replace (Z.abs (exponent n l)) with i by lia. f_equal. f_equal. rewrite Hk in E |- *. revert E. unfold kind.
    by destruct (at_name n (fun t => negb (is_dual t)) l), (at_name n displacement l).
  - unfold power in Hi. rewrite E in Hi. rewrite Z.mul_1_l in Hi. subst i.
    assert (k = if at_name n displacement l then Ads (Base n) else Base n) as Hk'.
    { rewrite Hk in E |- *. revert E. unfold kind.
      by destruct (at_name n (fun t => negb (is_dual t)) l), (at_name n displacement l). }
    destruct (Z.leb_spec 0 (exponent n l)).
    + by rewrite Z.abs_eq, <- Hk' by done.
    + rewrite Z.abs_neq, <- Hk' by lia. done.
Qed.

Lemma exponent_replicate n m t :
  exponent n (replicate m t) = if Nat.eqb (name t) n then (power t * Z.of_nat m)%Z else 0%Z.
Proof.
  induction m as [|m IH]; cbn [replicate exponent]; [destruct (Nat.eqb _ _); lia|]. rewrite IH.
  destruct (Nat.eqb _ _); lia.
Qed.

Lemma unpack_spec l acc cs :
  counted l acc -> (forall c, c ∈ cs -> c ∈ acc) -> StronglySorted (fun a b : ty * Z => name b.1 < name a.1) cs ->
  exists r, unpack cs = Some r /\
    (forall x, x ∈ r -> exists c, c ∈ cs /\ x = out (name c.1) l /\ exponent (name c.1) l <> 0%Z) /\
    (forall c, c ∈ cs -> exponent (name c.1) r = exponent (name c.1) l) /\
    (forall n, (forall c, c ∈ cs -> name c.1 <> n) -> exponent n r = 0%Z) /\
    StronglySorted (fun a b => name b <= name a) r.
Proof.
  intros Hacc. induction cs as [|c cs IH]; intros Hsub Hsort.
  { exists []. split; [done|]. split; [intros x Hx; by apply elem_of_nil in Hx|].
    split; [intros x Hx; by apply elem_of_nil in Hx|]. split; [done|constructor]. }
  apply StronglySorted_inv in Hsort as [Hsort Hhead]. rewrite Forall_forall in Hhead.
  destruct IH as (r & E & Hin & Hexp & Hno & Hs); [intros; apply Hsub; by right|done|].
  unfold unpack in *. cbn [mapM]. rewrite (unpack_one_spec l acc) by (try done; apply Hsub; left).
  destruct (mapM unpack_one cs) as [ls|]; [|done]. cbn [mbind option_bind mret option_ret mjoin list_join] in *.
  injection E as <-. set (n := name c.1). set (m := Z.to_nat (Z.abs (exponent n l))).
  assert (exponent n (replicate m (out n l)) = exponent n l) as Hrep.
  { rewrite exponent_replicate, out_name, Nat.eqb_refl. unfold m. rewrite Z2Nat.id by lia.
    destruct (decide (exponent n l = 0%Z)) as [Hz|Hz]; [rewrite Hz; lia|]. by apply out_power. }
  eexists. split; [reflexivity|]. split; [|split; [|split]].
  - intros x Hx. apply elem_of_app in Hx as [Hx|Hx].
    + apply elem_of_replicate in Hx as [-> Hm]. exists c. split; [left|]. split; [done|]. intros Hz.
      unfold m, n in Hm. rewrite Hz in Hm. done.
    + destruct (Hin x Hx) as (c' & Hc' & H). exists c'. split; [by right|done].
  - intros c' Hc'. rewrite exponent_app. apply elem_of_cons in Hc' as [-> |Hc'].
    + fold n. rewrite Hrep, Hno; [lia|]. intros c' Hc'. specialize (Hhead c' Hc'). cbn in Hhead. unfold n. lia.
    + rewrite Hexp by done. rewrite exponent_replicate, out_name. specialize (Hhead c' Hc'). cbn in Hhead.
      rewrite (proj2 (Nat.eqb_neq n (name c'.1))) by (unfold n; lia). lia.
  - intros n' Hn'. rewrite exponent_app, Hno by (intros; apply Hn'; by right).
    rewrite exponent_replicate, out_name. rewrite (proj2 (Nat.eqb_neq n n')) by (apply Hn'; left). lia.
  - assert (forall x, x ∈ mjoin ls -> name x < n) as Hlt.
    { intros x Hx. destruct (Hin x Hx) as (c' & Hc' & -> & _). rewrite out_name. apply (Hhead c' Hc'). }
    clear -Hs Hlt. induction m as [|m IH]; [done|]. cbn [replicate app]. constructor; [done|].
    rewrite Forall_forall. intros x Hx. apply elem_of_app in Hx as [Hx|Hx].
    + by apply elem_of_replicate in Hx as [-> _].
    + rewrite out_name. specialize (Hlt x Hx). lia.
Qed.

(** *** The result in order *)
Lemma StronglySorted_reverse {A} (R : A -> A -> Prop) l :
  StronglySorted (fun a b => R b a) l -> StronglySorted R (reverse l).
Proof.
  induction l as [|x l IH]; intros H; [constructor|]. apply StronglySorted_inv in H as [H Hx].
  rewrite reverse_cons. specialize (IH H). rewrite Forall_forall in Hx.
  assert (forall y, y ∈ reverse l -> R y x) as Hy by (intros y Hy; apply Hx; by apply elem_of_reverse).
  clear -IH Hy. induction (reverse l) as [|y k IHk]; [repeat constructor|].
  apply StronglySorted_inv in IH as [IH1 IH2]. cbn. constructor.
  - apply IHk; [done|]. intros z Hz. apply Hy. by right.
  - rewrite Forall_forall in *. intros z Hz. apply elem_of_app in Hz as [Hz|Hz]; [by apply IH2|].
    apply elem_of_list_singleton in Hz as ->. apply Hy. left.
Qed.

Lemma exponent_perm n l k : l ≡ₚ k -> exponent n l = exponent n k.
Proof. induction 1; cbn; lia. Qed.

Lemma StronglySorted_filter {A} (R : A -> A -> Prop) (P : A -> Prop) `{!forall x, Decision (P x)} l :
  StronglySorted R l -> StronglySorted R (filter P l).
Proof.
  induction l as [|x l IH]; intros Hs; [constructor|]. apply StronglySorted_inv in Hs as [Hs Hx].
  rewrite filter_cons. destruct (decide (P x)); [|by apply IH]. constructor; [by apply IH|].
  rewrite Forall_forall in *. intros y Hy. apply Hx. by apply elem_of_list_filter in Hy as [_ Hy].
Qed.

(** The factors left after dropping some of the names. *)
Lemma reverse_unpack_spec l acc (drop : ty * Z -> bool) :
  counted l acc ->
  exists r, unpack (filter (fun c => drop c = false) acc) = Some r /\
    reduced (reverse r) /\
    (forall x, x ∈ reverse r -> exists c, c ∈ acc /\ drop c = false /\ x = out (name c.1) l /\
       exponent (name c.1) l <> 0%Z) /\
    (forall c, c ∈ acc -> drop c = false -> exponent (name c.1) (reverse r) = exponent (name c.1) l) /\
    (forall n, (forall c, c ∈ acc -> drop c = false -> name c.1 <> n) -> exponent n (reverse r) = 0%Z).
Proof.
  intros Hc. destruct (unpack_spec l acc (filter (fun c => drop c = false) acc)) as (r & E & Hin & Hexp & Hno & Hs); try done.
  { intros c H. by apply elem_of_list_filter in H as [_ H]. }
  { apply StronglySorted_filter, Hc. }
  exists r. split; [done|].
  assert (forall n, exponent n (reverse r) = exponent n r) as Hrev.
  { intros n. apply exponent_perm, reverse_Permutation. }
  split; [split|].
  - by apply (StronglySorted_reverse (fun a b => name a <= name b)).
  - intros a b Ha Hb Hab. rewrite elem_of_reverse in Ha. rewrite elem_of_reverse in Hb.
    destruct (Hin a Ha) as (ca & _ & -> & _). destruct (Hin b Hb) as (cb & _ & -> & _).
    rewrite !out_name in Hab. by rewrite Hab.
  - split; [|split].
    + intros x Hx. rewrite elem_of_reverse in Hx. destruct (Hin x Hx) as (c & Hx' & H).
      apply elem_of_list_filter in Hx' as [H1 H2]. exists c. tauto.
    + intros c H1 H2. rewrite Hrev. apply Hexp. by apply elem_of_list_filter.
    + intros n Hn. rewrite Hrev. apply Hno. intros c H1. apply elem_of_list_filter in H1 as [H1 H2]. by apply Hn.
Qed.
