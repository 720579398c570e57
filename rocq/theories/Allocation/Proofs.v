(** Proofs about the checks of allocations: running them, and comparisons. *)
From stdpp Require Import list.
From Coq Require Import ZArith.
From Verif.Base Require Import Compare ListLemmas.
From Verif.Semantics Require Import Model.
From Verif.Allocation Require Import Model Spec.
Local Open Scope Z_scope.

(** ** Running *)

Section running.
  Context {C : container}.
  Lemma bind_eq {A B} (m : prog C A) (f : A -> prog C B) w a w' l b w'' l' :
    m w = (a, w', l) -> f a w' = (b, w'', l') -> bind C m f w = (b, w'', l ++ l').
  Proof. intros Hm Hf. unfold bind. by rewrite Hm, Hf. Qed.
  Lemma bind_eq_nil {A B} (m : prog C A) (f : A -> prog C B) w a w' r :
    m w = (a, w', []) -> f a w' = r -> bind C m f w = r.
  Proof. intros Hm Hf. unfold bind. rewrite Hm, Hf. by destruct r as [[? ?] ?]. Qed.
  Lemma check_true t (b : state C -> bool * state C) w : fst (b w) = true -> check C t b w = (true, snd (b w), []).
  Proof. intros Hb. unfold check. by rewrite Hb. Qed.
  Lemma check_false t (b : state C -> bool * state C) w : fst (b w) = false -> check C t b w = (false, snd (b w), [t]).
  Proof. intros Hb. unfold check. by rewrite Hb. Qed.
  Lemma guarded_eq {A} (m : prog C A) w a w' l :
    m w = (a, w', l) -> guarded C m w = (match l with [] => true | _ => false end, w', l).
  Proof. intros Hm. unfold guarded. by rewrite Hm. Qed.
  Lemma guarded_nil {A} (m : prog C A) w a w' : m w = (a, w', []) -> guarded C m w = (true, w', []).
  Proof. apply guarded_eq. Qed.

  Lemma each_eq infos (f : nat -> info -> prog C unit) (g : nat -> info -> list failure) w :
    (forall i n, infos !! i = Some n -> f i n w = (tt, w, g i n)) -> each C infos f w = (tt, w, per infos g).
  Proof.
    unfold each, per. revert f g. induction infos as [|n infos IH]; intros f g H; [done|].
    rewrite !imap_cons. cbn [foldr fst snd concat]. eapply bind_eq; [by apply H|].
    specialize (IH (fun i => f (S i)) (fun i => g (S i)) (fun i n' Hi => H (S i) n' Hi)).
    unfold each in IH. etransitivity; [|exact IH]. clear IH H n.
    assert (forall l (h : nat -> nat), foldr (fun p rest => bind C (f (fst p) (snd p)) (fun _ => rest)) (ret C tt) (imap (fun i (n : info) => (S (h i), n)) l) =
      foldr (fun p rest => bind C (f (S (fst p)) (snd p)) (fun _ => rest)) (ret C tt) (imap (fun i n => (h i, n)) l)) as G.
    { intros l. induction l as [|n l IH]; intros h; [done|]. rewrite !imap_cons. cbn [foldr fst snd].
      specialize (IH (fun i => h (S i))). unfold compose. by rewrite IH. }
    exact (f_equal (fun p => p w) (G infos id)).
  Qed.
  Lemma action_eq infos (m : prog C unit) w l :
    infos <> [] -> forall w', m w = (tt, w', l) -> action C infos m w = (tt, w', l).
  Proof. intros Hi w' Hm. by destruct infos. Qed.
  Lemma allocation_eq i e o prev p w : check_allocation C i e o prev p w =
    (tt, w, if c_count C w o i - prev - (snd p - fst p) =? fst p then [] else [Allocated i e (c_count C w o i - prev - (snd p - fst p)) (fst p)]).
  Proof. reflexivity. Qed.
  (** AllocationCheckersDetails.hpp L27-44: a number is right if it is that with the shift. *)
  Lemma allocation_spec i e o prev p w (n : nat) : c_count C w o i = prev + Z.of_nat n -> check_allocation C i e o prev p w = (tt, w, wrong i e n p).
  Proof.
    intros Hn. rewrite allocation_eq, Hn. unfold wrong.
    replace (prev + Z.of_nat n - prev - (snd p - fst p)) with (Z.of_nat n - (snd p - fst p)) by lia.
    destruct (Z.eqb_spec (Z.of_nat n) (snd p)); destruct (Z.eqb_spec (Z.of_nat n - (snd p - fst p)) (fst p)); (done || lia).
  Qed.
End running.

Lemma per_nil {A B} (l : list A) (f : nat -> A -> list B) : per l f = [] <-> forall i n, l !! i = Some n -> f i n = [].
Proof.
  unfold per. revert f. induction l as [|a l IH]; intros f; [done|]. rewrite imap_cons. cbn [concat]. rewrite app_nil, IH. split.
  - intros [H1 H2] [|i] n; cbn; [by intros [= <-]|apply H2].
  - intros H. split; [by apply (H 0%nat)|]. intros i n Hi. by apply (H (S i)).
Qed.
Lemma wrong_nil i e n p : wrong i e n p = [] <-> Z.of_nat n = snd p.
Proof. unfold wrong. destruct (Z.eqb_spec (Z.of_nat n) (snd p)); done. Qed.
Lemma per_ext {A B} (l : list A) (f g : nat -> A -> list B) : (forall i n, l !! i = Some n -> f i n = g i n) -> per l f = per l g.
Proof.
  unfold per. revert f g. induction l as [|a l IH]; intros f g H; [done|]. rewrite !imap_cons. cbn [concat].
  f_equal; [by apply (H 0%nat)|]. apply IH. intros i n Hi. by apply (H (S i)).
Qed.
Lemma per_empty {A B} (l : list A) : per l (fun _ _ => [] : list B) = [].
Proof. by apply per_nil. Qed.

(** ** Heaps *)

Section heaps.
  Context {V : Type}.
  Implicit Types w : heap V.

  (** heaps which cannot be told apart *)
  Definition same w w' : Prop :=
    (forall o, h_val w' o = h_val w o) /\ (forall o i, h_id w' o i = h_id w o i) /\ (forall i j, h_count w' i j = h_count w i j).
  Lemma same_refl w : same w w.
  Proof. by repeat split. Qed.
  Lemma same_trans w w' w'' : same w w' -> same w' w'' -> same w w''.
  Proof. intros (V1 & I1 & C1) (V2 & I2 & C2). split_and!; intros; by (rewrite ?V2, ?I2, ?C2, ?V1, ?I1, ?C1). Qed.

  Context {E : EqDecision V} {cmp : V -> V -> comparison} {infos : list info} {K : costs V} {moved : V -> V} {streams three : bool}.
  Notation M := (machine cmp infos K moved streams three).
  Context (Hfree : free K).

  Lemma compare_same c w a b : same w (compare K c w a b).
  Proof using Hfree.
    split_and!; try done. intros i j. cbn. rewrite !Hfree. cbn.
    repeat match goal with |- context [if ?b then _ else _] => destruct b end; lia.
  Qed.
End heaps.

Ltac sames := repeat match goal with
  | H : same ?a ?b |- context [h_val ?b _] => rewrite (proj1 H)
  | H : same ?a ?b |- context [h_id ?b _ _] => rewrite (proj1 (proj2 H))
  | H : same ?a ?b |- context [h_count ?b _ _] => rewrite (proj2 (proj2 H))
  end.
Ltac ops := unfold do_copy, do_move, do_assign, do_move_assign, do_swap, do_para_copy, do_para_move, do_mutate, fresh, spend, place.
Ltac calc := repeat (progress (cbn [h_val h_id h_count Nat.eqb c_count c_destroy c_copy c_move c_copy_assign c_move_assign c_swap c_para_copy c_para_move c_eq c_ne c_same c_best fst snd machine]; ops; sames)); cbn [h_val h_id h_count Nat.eqb fst snd].
