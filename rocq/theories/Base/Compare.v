(** Three-way comparisons, lexicographical order and sorting, as of [<=>] and [std::sort] for types whose
    equivalent values are equal (then any sorting algorithm gives the same result). *)
From Coq Require Import Ascii NArith.
From stdpp Require Import list sorting.
From Verif.Base Require Import Order.

Record total_cmp {A} (cmp : A -> A -> comparison) : Prop := {
  cmp_eq : forall x y, cmp x y = Eq <-> x = y;
  cmp_opp : forall x y, cmp y x = CompOpp (cmp x y);
  cmp_trans : forall x y z, cmp x y = Lt -> cmp y z = Lt -> cmp x z = Lt
}.
Arguments cmp_eq {A cmp} _.
Arguments cmp_opp {A cmp} _.
Arguments cmp_trans {A cmp} _.

(** Lexicographical comparison of sequences. *)
Fixpoint list_compare {A} (cmp : A -> A -> comparison) (l1 l2 : list A) : comparison :=
  match l1, l2 with
  | [], [] => Eq
  | [], _ => Lt
  | _, [] => Gt
  | x :: l1', y :: l2' => match cmp x y with Eq => list_compare cmp l1' l2' | c => c end
  end.

Definition pair_compare {A B} (ca : A -> A -> comparison) (cb : B -> B -> comparison) (p q : A * B) : comparison :=
  match ca (fst p) (fst q) with Eq => cb (snd p) (snd q) | c => c end.

Definition ascii_compare (a b : ascii) : comparison := N.compare (N_of_ascii a) (N_of_ascii b).
Definition text_compare : list ascii -> list ascii -> comparison := list_compare ascii_compare.

(** Sorting by insertion. *)
Fixpoint insert_by {A} (cmp : A -> A -> comparison) (x : A) (l : list A) : list A :=
  match l with
  | [] => [x]
  | y :: l' => match cmp y x with Lt => y :: insert_by cmp x l' | _ => x :: l end
  end.
Definition sort_by {A} (cmp : A -> A -> comparison) (l : list A) : list A := foldr (insert_by cmp) [] l.

(** ** Laws *)

Section laws.
  Context {A : Type} {cmp : A -> A -> comparison} (H : total_cmp cmp).

  Lemma cmp_refl x : cmp x x = Eq.
  Proof. by apply (cmp_eq H). Qed.

  Lemma cmp_gt x y : cmp x y = Gt <-> cmp y x = Lt.
  Proof. rewrite (cmp_opp H x y). by destruct (cmp x y). Qed.

  Lemma cmp_irrefl x : cmp x x <> Lt.
  Proof. by rewrite cmp_refl. Qed.

  Lemma cmp_asym x y : cmp x y = Lt -> cmp y x <> Lt.
  Proof. intros H1 H2. apply (cmp_irrefl x). by eapply (cmp_trans H). Qed.

  Lemma list_total : total_cmp (list_compare cmp).
  Proof.
    split.
    - induction x as [|x l IH]; intros [|y l2]; cbn; try done.
      destruct (cmp x y) eqn:E.
      + apply (cmp_eq H) in E as ->. rewrite IH. split; [by intros ->|by intros [=]].
      + split; [done|]. intros [= -> ->]. by rewrite cmp_refl in E.
      + split; [done|]. intros [= -> ->]. by rewrite cmp_refl in E.
    - induction x as [|x l IH]; intros [|y l2]; cbn; try done.
      rewrite (cmp_opp H x y). destruct (cmp x y); cbn; try done.
    - induction x as [|x l IH]; intros [|y l2] [|z l3]; cbn; try done.
      destruct (cmp x y) eqn:E1; [|intros _|done].
      + apply (cmp_eq H) in E1 as ->. destruct (cmp y z); [apply IH|done|done].
      + destruct (cmp y z) eqn:E2; [|intros _|done].
        * apply (cmp_eq H) in E2 as ->. by rewrite E1.
        * by rewrite (cmp_trans H _ _ _ E1 E2).
  Qed.

  Lemma insert_by_perm x l : insert_by cmp x l ≡ₚ x :: l.
  Proof.
    induction l as [|y l IH]; cbn; [done|]. destruct (cmp y x); [done| |done].
    rewrite IH. constructor.
  Qed.

  Lemma sort_by_perm l : sort_by cmp l ≡ₚ l.
  Proof. induction l as [|x l IH]; cbn; [done|]. rewrite insert_by_perm. by f_equiv. Qed.

  Definition le_by (x y : A) : Prop := cmp y x <> Lt.

  Lemma le_by_trans x y z : le_by x y -> le_by y z -> le_by x z.
  Proof.
    unfold le_by. intros H1 H2 H3. destruct (cmp y x) eqn:E1; [|done|].
    - apply (cmp_eq H) in E1 as ->. done.
    - apply cmp_gt in E1. apply H2. by eapply (cmp_trans H).
  Qed.

  Lemma insert_by_sorted x l : StronglySorted le_by l -> StronglySorted le_by (insert_by cmp x l).
  Proof.
    induction 1 as [|y l Hs IH HF]; cbn; [repeat constructor|]. destruct (cmp y x) eqn:E.
    - constructor; [by constructor|]. constructor.
      + unfold le_by. by rewrite E.
      + apply (cmp_eq H) in E as ->. done.
    - constructor; [done|]. rewrite insert_by_perm. constructor; [|done].
      unfold le_by. rewrite (cmp_opp H y x), E. done.
    - constructor; [by constructor|]. constructor; [unfold le_by; by rewrite E|].
      eapply Forall_impl; [exact HF|]. cbn. intros z Hz. eapply le_by_trans; [|exact Hz].
      unfold le_by. by rewrite E.
  Qed.

  Lemma sort_by_sorted l : StronglySorted le_by (sort_by cmp l).
  Proof. induction l as [|x l IH]; cbn; [constructor|]. by apply insert_by_sorted. Qed.

  #[local] Instance le_by_antisym : AntiSymm (=) le_by.
  Proof.
    intros x y H1 H2. unfold le_by in *. destruct (cmp y x) eqn:E; [by apply (cmp_eq H) in E|done|].
    apply cmp_gt in E. done.
  Qed.

  Lemma sorted_unique_by l1 l2 : StronglySorted le_by l1 -> StronglySorted le_by l2 -> l1 ≡ₚ l2 -> l1 = l2.
  Proof. apply (StronglySorted_unique le_by). Qed.

  Lemma sort_by_unique l l' : StronglySorted le_by l' -> l' ≡ₚ l -> l' = sort_by cmp l.
  Proof. intros H1 H2. apply sorted_unique_by; [done|apply sort_by_sorted|]. by rewrite sort_by_perm. Qed.

  (** Strictly sorted sequences. *)
  Definition lt_by (x y : A) : Prop := cmp x y = Lt.

  Lemma strictly_sorted l : NoDup l -> StronglySorted le_by l -> StronglySorted lt_by l.
  Proof.
    intros Hd Hs. induction Hs as [|x l Hs IH HF]; [constructor|]. apply NoDup_cons in Hd as [Hx Hd].
    constructor; [by apply IH|]. rewrite Forall_forall in *. intros y Hy. specialize (HF y Hy). unfold le_by, lt_by in *.
    rewrite (cmp_opp H y x). destruct (cmp y x) eqn:E; [|done|done].
    apply (cmp_eq H) in E as ->. done.
  Qed.

  Lemma sort_by_strict l : NoDup l -> StronglySorted lt_by (sort_by cmp l).
  Proof. intros Hd. apply strictly_sorted; [by rewrite sort_by_perm|apply sort_by_sorted]. Qed.
End laws.

Lemma pair_total {A B} (ca : A -> A -> comparison) (cb : B -> B -> comparison) :
  total_cmp ca -> total_cmp cb -> total_cmp (pair_compare ca cb).
Proof.
  intros HA HB. unfold pair_compare. split.
  - intros [a b] [a' b']; cbn. destruct (ca a a') eqn:E.
    + apply (cmp_eq HA) in E as ->. rewrite (cmp_eq HB). split; [by intros ->|by intros [=]].
    + split; [done|]. intros [= -> ->]. by rewrite (cmp_refl HA) in E.
    + split; [done|]. intros [= -> ->]. by rewrite (cmp_refl HA) in E.
  - intros [a b] [a' b']; cbn. rewrite (cmp_opp HA a a'). destruct (ca a a'); cbn; try done. apply (cmp_opp HB).
  - intros [a b] [a' b'] [a'' b'']; cbn. destruct (ca a a') eqn:E1; [|intros _|done].
    + apply (cmp_eq HA) in E1 as ->. destruct (ca a' a''); [apply (cmp_trans HB)|done|done].
    + destruct (ca a' a'') eqn:E2; [|intros _|done].
      * apply (cmp_eq HA) in E2 as ->. by rewrite E1.
      * by rewrite (cmp_trans HA _ _ _ E1 E2).
Qed.

Lemma N_total : total_cmp N.compare.
Proof.
  split.
  - apply N.compare_eq_iff.
  - intros x y. apply N.compare_antisym.
  - intros x y z. rewrite !N.compare_lt_iff. apply N.lt_trans.
Qed.

Lemma ascii_total : total_cmp ascii_compare.
Proof.
  unfold ascii_compare. split.
  - intros x y. rewrite N.compare_eq_iff. split; [|by intros ->].
    intros E. by rewrite <- (ascii_N_embedding x), <- (ascii_N_embedding y), E.
  - intros x y. apply N.compare_antisym.
  - intros x y z. rewrite !N.compare_lt_iff. apply N.lt_trans.
Qed.

Lemma text_total : total_cmp text_compare.
Proof. apply list_total, ascii_total. Qed.

(** Equal beginnings do not matter; different ones of the same length decide. *)
Lemma list_compare_app {A} (cmp : A -> A -> comparison) (H : total_cmp cmp) l l1 l2 :
  list_compare cmp (l ++ l1) (l ++ l2) = list_compare cmp l1 l2.
Proof. induction l as [|x l IH]; cbn; [done|]. by rewrite (cmp_refl H). Qed.

Lemma list_compare_app_lt {A} (cmp : A -> A -> comparison) l1 : forall l2 r1 r2, length l1 = length l2 ->
  list_compare cmp l1 l2 = Lt -> list_compare cmp (l1 ++ r1) (l2 ++ r2) = Lt.
Proof.
  induction l1 as [|x l1 IH]; intros [|y l2] r1 r2 Hl; cbn; try done.
  destruct (cmp x y); [|done|done]. apply IH. cbn in Hl. lia.
Qed.
