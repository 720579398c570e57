(** Without allocators the checks are those of values only. *)
From stdpp Require Import list.
From Coq Require Import ZArith.
From Verif.Semantics Require Model.
From Verif.Allocation Require Import Model Spec.
Module Sem := Verif.Semantics.Model.

Section plain.
  Context (S : Sem.subject).
  Notation C := (plain S).
  Definition sim {A} (m : Sem.code S A) (m' : prog C A) : Prop := forall w, m' w = as_values (m w).

  Lemma sim_ret {A} (a : A) : sim (Sem.ret S a) (ret C a).
  Proof. by intros w. Qed.
  Lemma sim_bind {A B} m m' (k : A -> Sem.code S B) k' : sim m m' -> (forall a, sim (k a) (k' a)) -> sim (Sem.bind S m k) (bind C m' k').
  Proof.
    intros Hm Hk w. unfold bind, Sem.bind, as_values. rewrite (Hm w). unfold as_values. destruct (m w) as [[a w'] l]. cbn [fst snd].
    rewrite (Hk a w'). unfold as_values. destruct (k a w') as [[b w''] l']. cbn. by rewrite map_app.
  Qed.
  Lemma sim_check t b b' : (forall w, b' w = (b w, w)) -> sim (Sem.check S t b) (check C (Value t) b').
  Proof. intros Hb w. unfold check, Sem.check, as_values. rewrite Hb. cbn. by destruct (b w). Qed.
  Lemma sim_test b b' : (forall w, b' w = (b w, w)) -> sim (Sem.test S b) (test C b').
  Proof. intros Hb w. unfold test, Sem.test, as_values. by rewrite Hb. Qed.
  Lemma sim_act f : sim (Sem.act S f) (act C f).
  Proof. by intros w. Qed.
  Lemma sim_guarded {A} (m : Sem.code S A) m' : sim m m' -> sim (Sem.guarded S m) (guarded C m').
  Proof.
    intros Hm w. unfold guarded, Sem.guarded, as_values. rewrite (Hm w). unfold as_values. destruct (m w) as [[a w'] l]. cbn. by destruct l.
  Qed.
  (** What has no effect *)
  Lemma sim_skip {A B} (m : Sem.code S A) (e : prog C B) k : (forall w, exists b, e w = (b, w, [])) -> (forall b, sim m (k b)) -> sim m (bind C e k).
  Proof.
    intros He Hk w. unfold bind. destruct (He w) as [b ->]. rewrite (Hk b w). unfold as_values. by destruct (m w) as [[a w'] l].
  Qed.
  Lemma sim_quiet {A} (m : Sem.code S A) (e : prog C A) k : sim m k -> (forall w, e w = k w) -> sim m e.
  Proof. intros Hk He w. by rewrite He. Qed.

  Lemma sim_assoc {A B D} (m : Sem.code S D) (e : prog C A) (f : A -> prog C B) k : sim m (bind C e (fun a => bind C (f a) k)) -> sim m (bind C (bind C e f) k).
  Proof.
    intros H. eapply sim_quiet; [exact H|]. intros w. unfold bind. destruct (e w) as [[a w'] l]. destruct (f a w') as [[b w''] l'].
    destruct (k b w'') as [[d w3] l'']. by rewrite app_assoc.
  Qed.

  Lemma count_skips o w : exists b, counts C o w = (b, w, []).
  Proof. by eexists. Qed.
  Lemma equals_skips a b w : exists c, equals C a b w = (c, w, []).
  Proof. by eexists. Qed.
  Lemma ret_skips {A} (a : A) w : exists b, ret C a w = (b, w, []).
  Proof. by eexists. Qed.

  Lemma action_skips m w : exists b, action C [] m w = (b, w, []).
  Proof. by eexists. Qed.

  Ltac step := first
    [ apply sim_ret | apply sim_act | apply sim_check; done | apply sim_test; done
    | apply sim_skip; [apply count_skips|]; intros ?
    | apply sim_skip; [apply equals_skips|]; intros ?
    | apply sim_skip; [apply action_skips|]; intros ?
    | apply sim_guarded | apply sim_bind; [|intros ?]
    | apply sim_skip; [apply ret_skips|]; intros ? ].

  Lemma consistent_sim c x y f f' : (forall w o, f' w o = (f w o, w)) -> sim (Sem.consistent S c x y f) (consistent C [] c x y f').
  Proof.
    intros Hf. unfold consistent, Sem.consistent, consistent_one. step.
    assert (forall o, sim (Sem.check S (Sem.Inconsistent c o) (fun w => f w o)) (consistent_one C [] c o f')) as H.
    { intros o. unfold consistent_one. step. intros w. unfold bind, check, Sem.check, as_values. rewrite Hf. cbn. by destruct (f w o). }
    step; apply H.
  Qed.

  Lemma ordering_sim x y : sim (Sem.ordering_consistency S x y) (ordering_consistency C [] x y).
  Proof.
    unfold ordering_consistency, Sem.ordering_consistency, ordering_operators, Sem.ordering_operators.
    assert (forall u v, sim (Sem.compared S u v) (compared C u v)) as H.
    { intros u v. unfold compared, Sem.compared. cbn [c_three plain]. destruct (Sem.s_three S); repeat step. }
    step; [|destruct a; [step; [by step|destruct a; apply H]|step]].
    cbn [c_three plain]. step. repeat (step; [by apply consistent_sim|]). destruct (Sem.s_three S); [by apply consistent_sim|step].
  Qed.

  Lemma prerequisites_sim order x y c c' :
    match c, c' with
    | Some (a, b), Some (a', b') => (forall w o, a' w o = (a w o, w)) /\ (forall w o, b' w o = (b w o, w))
    | None, None => True
    | _, _ => False
    end -> sim (Sem.prerequisites S order x y c) (prerequisites C [] order x y c').
  Proof.
    intros Hc. unfold prerequisites, Sem.prerequisites, clone_prerequisites, Sem.clone_prerequisites, equality_prerequisites, Sem.equality_prerequisites.
    step.
    - step.
      + step; [by apply consistent_sim|]. step; [by apply consistent_sim|]. destruct (a && a0); step.
      + destruct a; [|step]. destruct c as [[u v]|], c' as [[u' v']|]; try done. destruct Hc. repeat step.
    - destruct a; [|step]. destruct order as [o|]; [|step]. step; [by step|]. destruct a; [|step].
      step; [apply ordering_sim|]. destruct a; [|step]. apply sim_check. by destruct o.
  Qed.

  Lemma move_construction_sim z w r like like' : (forall w o, like' w o = (like w o, w)) ->
    sim (Sem.move_construction S z w r like None) (move_construction C [] z w r like' None).
  Proof.
    intros Hl. unfold move_construction, Sem.move_construction. step. step; [step|]. step; [by step|]. destruct a0; [|repeat step].
    step; [step|]. step. repeat step.
  Qed.
  Lemma move_assign_sim m z y like like' : (forall w o, like' w o = (like w o, w)) ->
    sim (Sem.move_assign S z y like None) (move_assign C [] m z y like' None).
  Proof. intros Hl. unfold move_assign, Sem.move_assign. do 3 step. step; [step|]. step; [by step|]. destruct a0; [|step]. by intros w. Qed.
  Lemma swap_sim x y like_x like_y like_x' like_y' post : (forall w o, like_x' w o = (like_x w o, w)) -> (forall w o, like_y' w o = (like_y w o, w)) ->
    sim (Sem.swap_check S x y like_x like_y) (swap_check C [] x y like_x' like_y' post).
  Proof.
    intros H1 H2. unfold swap_check, Sem.swap_check. do 2 step. step; [step|]. step; [by step|]. step; [by step|]. destruct (a1 && a0); [|step].
    step. repeat step.
  Qed.
  Lemma copy_assign_sim z y : sim (Sem.copy_assign_check S z y) (copy_assign_check C [] z y).
  Proof. unfold copy_assign_check, Sem.copy_assign_check. do 2 step. step; [step|]. step; [by step|]. destruct a0; [|step]. step. repeat step. Qed.
  Lemma mutation_sim f v y : sim (Sem.mutation_check S v y f) (mutation_check C (Some f) v y).
  Proof.
    unfold mutation_check, Sem.mutation_check, mutate. step; [step|]. step; [step|]. step; [|step]. step; [by step|]. destruct a1; [|step].
    step; [step|]. step; [by step|]. destruct a2; repeat step.
  Qed.
  Lemma serialization_sim u y like like' : (forall w o, like' w o = (like w o, w)) ->
    sim (Sem.serialization_check S u y like) (serialization_check C [] u y like').
  Proof.
    intros Hl. unfold serialization_check, Sem.serialization_check. cbn [c_serialize plain]. destruct (Sem.s_serialize S) as [[write read]|]; [|step].
    intros w. unfold bind, Sem.bind, act, Sem.act, check, Sem.check, counts, action, ret, Sem.ret, as_values. cbn. rewrite Hl. cbn.
    by destruct (like _ u).
  Qed.

  Definition wish (order : option comparison) (mutator : option (Sem.world S -> nat -> Sem.world S)) : Sem.request S :=
    {| Sem.q_order := order; Sem.q_clones := None; Sem.q_moved_construction := None; Sem.q_moved_assignment := None; Sem.q_mutator := mutator |}.

  Lemma regular_sim order (mutator : option (Sem.world S -> nat -> Sem.world S)) :
    sim (Sem.regular_body S (wish order mutator)) (regular_body C [] mutator order).
  Proof.
    unfold regular_body, Sem.regular_body. do 2 step. step; [by apply prerequisites_sim|]. destruct a; [|step].
    step; [step|]. step; [by step|]. apply sim_skip; [intros w; destruct a0; by eexists|]. intros _.
    step; [apply copy_assign_sim|]. step.
    { destruct a1; [|step]. step; [by apply move_construction_sim|]. destruct a1; step. }
    destruct a0; [|repeat step]. step; [step|]. step; [step|]. step; [by apply move_assign_sim|]. step; [step|].
    cbn [swappable forallb].
    apply sim_assoc. step; [step|]. apply sim_assoc. step; [step|]. apply sim_assoc. step; [by apply swap_sim|].
    step; [step|]. step; [destruct mutator; [destruct a1; [apply mutation_sim|step]|step]|].
    step; [|repeat step]. cbn [c_serialize plain]. pose proof (serialization_sim 10 1 (fun a o => Sem.s_best S a o 1) (fun a o => c_best C a o 1)) as Hs.
    destruct (Sem.s_serialize S) as [[write read]|]; [|step]. step; [step|]. step; [by apply Hs|]. step.
  Qed.

  Lemma move_only_sim order (mutator : option (Sem.world S -> nat -> Sem.world S)) (like_x like_y : Sem.world S -> nat -> bool) :
    sim (Sem.move_only_body S (wish order mutator) (like_x, like_y))
        (move_only_body C [] mutator order (fun w o => (like_x w o, w), fun w o => (like_y w o, w)) None None).
  Proof.
    unfold move_only_body, Sem.move_only_body. step; [by apply prerequisites_sim|]. destruct a; [|step].
    step; [by apply move_construction_sim|]. destruct a; [|step]. cbn [swappable forallb].
    apply sim_assoc. step; [by apply swap_sim|]. step; [destruct a; [by apply move_assign_sim|step]|].
    step; [|repeat step]. pose proof (serialization_sim 0 11 like_y (fun w o => (like_y w o, w)) (fun _ _ => eq_refl)) as Hs.
    unfold Sem.serialization_check in Hs. unfold serialization_check in Hs |- *. cbn [c_serialize plain] in *.
    destruct (Sem.s_serialize S) as [[write read]|]; [|step]. exact Hs.
  Qed.
End plain.
