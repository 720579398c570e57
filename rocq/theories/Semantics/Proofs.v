(** Proofs about the checks of semantics: when they pass. *)
From stdpp Require Import list.
From Verif.Base Require Import Compare ListLemmas.
From Verif.Semantics Require Import Model Spec.

Section passes.
  Context {S : subject}.

  (** The code runs without failures. *)
  Definition passes {A} (m : code S A) (w : world S) (a : A) (w' : world S) : Prop := m w = (a, w', []).

  Lemma passes_failures {A} (m : code S A) w : failures m w = [] <-> exists a w', passes m w a w'.
  Proof.
    unfold failures, passes. destruct (m w) as [[a w'] l]. cbn. split.
    - intros ->. by exists a, w'.
    - by intros (a'&w''&[= _ _ ->]).
  Qed.

  Lemma passes_ret {A} (a : A) w b w' : passes (ret S a) w b w' <-> b = a /\ w' = w.
  Proof. unfold passes, ret. split; [by intros [= -> ->]|by intros [-> ->]]. Qed.
  Lemma passes_act f w b w' : passes (act S f) w b w' <-> b = tt /\ w' = f w.
  Proof. unfold passes, act. split; [by intros [= -> ->]|by intros [-> ->]]. Qed.
  Lemma passes_test f w b w' : passes (test S f) w b w' <-> b = f w /\ w' = w.
  Proof. unfold passes, test. split; [by intros [= -> ->]|by intros [-> ->]]. Qed.
  Lemma passes_check t f w b w' : passes (check S t f) w b w' <-> f w = true /\ b = true /\ w' = w.
  Proof. unfold passes, check. destruct (f w); split; [by intros [= -> ->]|by intros (_&->&->)|discriminate|by intros []]. Qed.
  Lemma passes_bind {A B} (m : code S A) (f : A -> code S B) w b w' :
    passes (bind S m f) w b w' <-> exists a w1, passes m w a w1 /\ passes (f a) w1 b w'.
  Proof.
    unfold passes, bind. destruct (m w) as [[a w1] l]. destruct (f a w1) as [[c w2] l'] eqn:E. split.
    - intros [= -> -> [-> ->]%app_eq_nil]. by exists a, w1.
    - intros (a'&w1'&[= <- <- ->]&H). rewrite E in H. by injection H as -> -> ->.
  Qed.
  Lemma passes_guarded {A} (m : code S A) w b w' : passes (guarded S m) w b w' <-> b = true /\ exists a, passes m w a w'.
  Proof.
    unfold passes, guarded. destruct (m w) as [[a w1] l]. split.
    - intros [= <- -> ->]. split; [done|]. by exists a.
    - intros (->&a'&[= _ -> ->]). done.
  Qed.

  Lemma guarded_returned {A} (m : code S A) w : returned (guarded S m) w = true <-> failures (guarded S m) w = [].
  Proof. unfold returned, failures, guarded. destruct (m w) as [[a w1] [|t l]]; cbn; done. Qed.
End passes.

Ltac unpass :=
  repeat match goal with
  | H : passes (bind _ _ _) _ _ _ |- _ => apply passes_bind in H; destruct H as (?&?&?&?)
  | H : passes (check _ _ _) _ _ _ |- _ => apply passes_check in H; destruct H as (?&->&->)
  | H : passes (ret _ _) _ _ _ |- _ => apply passes_ret in H; destruct H as (->&->)
  | H : passes (act _ _) _ _ _ |- _ => apply passes_act in H; destruct H as (->&->)
  | H : passes (test _ _) _ _ _ |- _ => apply passes_test in H; destruct H as (->&->)
  | H : passes (guarded _ _) _ _ _ |- _ => apply passes_guarded in H; destruct H as (->&?&?)
  end.
Ltac dopass :=
  repeat match goal with
  | |- passes (bind _ _ _) _ _ _ => apply passes_bind; eexists _, _; split
  | |- passes (check _ _ _) _ _ _ => apply passes_check; split; [|split; reflexivity]
  | |- passes (ret _ _) _ _ _ => apply passes_ret; split; reflexivity
  | |- passes (act _ _) _ _ _ => apply passes_act; split; reflexivity
  | |- passes (test _ _) _ _ _ => apply passes_test; split; reflexivity
  | |- passes (guarded _ _) _ _ _ => apply passes_guarded; split; [reflexivity|eexists]
  end.

Tactic Notation "passed" uconstr(lem) := apply lem; split; [reflexivity|split; [reflexivity|]].

Ltac act1 := apply passes_bind; eexists _, _; split; [apply passes_act; split; reflexivity|cbn iota].
Ltac chk1 := apply passes_bind; eexists _, _; split; [apply passes_check; split; [eassumption|split; reflexivity]|cbn iota].
Tactic Notation "via" uconstr(lem) := apply passes_bind; eexists _, _; split; [passed lem; done|cbn iota].

Section steps.
  Context {S : subject}.
  Implicit Types (w : world S).

  Lemma consistent_passes c x y f w b w' :
    passes (consistent S c x y f) w b w' <-> b = true /\ w' = w /\ f w x = true /\ f w y = true.
  Proof.
    unfold consistent. split.
    - intros H. unpass. done.
    - intros (->&->&H1&H2). dopass; done.
  Qed.

  Lemma ordering_operators_passes x y w b w' :
    passes (ordering_operators S x y) w b w' <-> b = true /\ w' = w /\
      (s_lt S w x x = false /\ s_lt S w y y = false) /\ (s_le S w x x = true /\ s_le S w y y = true) /\
      (s_gt S w x x = false /\ s_gt S w y y = false) /\ (s_ge S w x x = true /\ s_ge S w y y = true) /\ three_consistent w x y.
  Proof.
    unfold ordering_operators, three_consistent. split.
    - intros H. unpass.
      repeat match goal with H : passes (consistent _ _ _ _ _) _ _ _ |- _ => apply consistent_passes in H as (->&->&?&?) end.
      destruct (s_three S) as [three|]; unpass;
        repeat match goal with H : passes (consistent _ _ _ _ _) _ _ _ |- _ => apply consistent_passes in H as (->&->&?&?) end;
        rewrite !negb_true_iff in *; repeat (split; [done|]); [|done].
      intros ? [= <-]. by destruct (three w x x), (three w y y).
    - intros (->&->&[H1 H2]&[H3 H4]&[H5 H6]&[H7 H8]&H9). dopass; try (passed consistent_passes; rewrite ?H1, ?H2, ?H3, ?H4, ?H5, ?H6, ?H7, ?H8; done).
      destruct (s_three S) as [three|]; [|apply passes_ret; split; reflexivity]. destruct (H9 three eq_refl) as [E1 E2].
      apply consistent_passes. by rewrite E1, E2.
  Qed.

  Lemma compared_passes u v w b w' :
    passes (compared S u v) w b w' <-> b = true /\ w' = w /\ s_gt S w v u = true /\ s_le S w u v = true /\ s_ge S w v u = true /\
      forall three, s_three S = Some three -> three w u v = Lt.
  Proof.
    unfold compared. split.
    - intros H. unpass. destruct (s_three S) as [three|]; unpass; repeat (split; [done|]); [|done].
      intros ? [= <-]. by destruct (three w u v).
    - intros (->&->&H1&H2&H3&H4). dopass; try done. destruct (s_three S) as [three|]; [|apply passes_ret; split; reflexivity].
      apply passes_check. split; [|split; reflexivity]. by rewrite (H4 three eq_refl).
  Qed.

  Lemma ordering_consistency_passes x y w b w' :
    passes (ordering_consistency S x y) w b w' <-> b = true /\ w' = w /\
      ((s_lt S w x x = false /\ s_lt S w y y = false) /\ (s_le S w x x = true /\ s_le S w y y = true) /\
       (s_gt S w x x = false /\ s_gt S w y y = false) /\ (s_ge S w x x = true /\ s_ge S w y y = true) /\ three_consistent w x y) /\
      if s_lt S w x y then order_holds w x y else order_holds w y x.
  Proof.
    unfold ordering_consistency, order_holds. split.
    - intros H. unpass. match goal with H : passes (ordering_operators _ _ _) _ _ _ |- _ => apply ordering_operators_passes in H as (->&->&Hops) end.
      unpass. destruct (s_lt S w x y);
        match goal with H : passes (compared _ _ _) _ _ _ |- _ => apply compared_passes in H as (->&->&H) end; done.
    - intros (->&->&Hops&H). dopass; [by passed ordering_operators_passes|]. cbn iota. dopass.
      destruct (s_lt S w x y); by apply compared_passes.
  Qed.

  Lemma equality_prerequisites_passes x y w b w' :
    passes (equality_prerequisites S x y) w b w' <-> b = true /\ w' = w /\ equality_holds w x y.
  Proof.
    unfold equality_prerequisites, equality_holds. split.
    - intros H. unpass.
      repeat match goal with H : passes (consistent _ _ _ _ _) _ _ _ |- _ => apply consistent_passes in H as (->&->&?&?) end.
      cbn [andb] in *. unpass. rewrite !negb_true_iff in *. done.
    - intros (->&->&[H1 H2]&[H3 H4]&H5). dopass; try (passed consistent_passes; rewrite ?H1, ?H2, ?H3, ?H4; done).
      cbn [andb]. by apply passes_check.
  Qed.

  Lemma clone_prerequisites_passes x y c w b w' :
    passes (clone_prerequisites S x y c) w b w' <-> b = true /\ w' = w /\ equality_holds w x y /\
      match c with Some (lx, ly) => lx w x = true /\ ly w y = true | None => True end.
  Proof.
    unfold clone_prerequisites. split.
    - intros H. unpass. match goal with H : passes (equality_prerequisites _ _ _) _ _ _ |- _ => apply equality_prerequisites_passes in H as (->&->&?) end.
      destruct c as [[lx ly]|]; unpass; done.
    - intros (->&->&H1&H2). dopass; [by passed equality_prerequisites_passes|]. cbn iota. destruct c as [[lx ly]|].
      + destruct H2. dopass; done.
      + apply passes_ret; split; reflexivity.
  Qed.

  Lemma prerequisites_passes order x y c w b w' :
    passes (prerequisites S order x y c) w b w' <-> b = true /\ w' = w /\ equality_holds w x y /\
      match c with Some (lx, ly) => lx w x = true /\ ly w y = true | None => True end /\
      match order with Some o => ordering_holds o w x y | None => True end.
  Proof.
    unfold prerequisites, ordering_holds. split.
    - intros H. unpass. match goal with H : passes (clone_prerequisites _ _ _ _) _ _ _ |- _ => apply clone_prerequisites_passes in H as (->&->&?&?) end.
      destruct order as [o|]; unpass; [|done].
      match goal with H : passes (ordering_consistency _ _ _) _ _ _ |- _ => apply ordering_consistency_passes in H as (->&->&?&?) end. unpass.
      repeat (split; [done|]). split; [by destruct o|]. repeat (split; [done|]). by destruct o.
    - intros (->&->&H1&H2&H3). dopass; [by passed clone_prerequisites_passes|]. cbn iota. destruct order as [o|]; [|apply passes_ret; split; reflexivity].
      destruct H3 as (H3&H4&H5&H6). dopass; [by destruct o|]. cbn iota. dopass; [by passed ordering_consistency_passes|]. cbn iota.
      apply passes_check. by destruct o.
  Qed.

  Definition moved_from (p : option (world S -> nat -> bool)) w o : Prop := match p with Some p => p w o = true | None => True end.

  Lemma move_construction_passes z t r like moved w b w' :
    passes (move_construction S z t r like moved) w b w' <-> b = true /\
      w' = s_destroy S (s_move S (s_move S w z t) t r) t /\ like (s_move S w z t) t = true /\ moved_from moved (s_move S w z t) z.
  Proof.
    unfold move_construction, moved_from. split.
    - intros H. unpass. destruct moved; unpass; done.
    - intros (->&->&H1&H2). dopass; [done|]. cbn iota. dopass. destruct moved; [apply passes_check; split; [done|split; reflexivity]|apply passes_ret; split; reflexivity].
  Qed.

  Lemma move_assign_passes z y like moved w b w' :
    passes (move_assign S z y like moved) w b w' <-> b = tt /\
      w' = s_move_assign S w z y /\ like (s_move_assign S w z y) z = true /\ moved_from moved (s_move_assign S w z y) y.
  Proof.
    unfold move_assign, moved_from. split.
    - intros H. unpass. destruct moved; unpass; done.
    - intros (->&->&H1&H2). dopass; [done|]. cbn iota. dopass. destruct moved; [apply passes_check; split; [done|split; reflexivity]|apply passes_ret; split; reflexivity].
  Qed.

  Lemma swap_check_passes x y lx ly w b w' :
    passes (swap_check S x y lx ly) w b w' <-> b = true /\
      w' = s_swap S (s_swap S w x y) y y /\ lx (s_swap S w x y) y = true /\ ly (s_swap S w x y) x = true /\ lx (s_swap S (s_swap S w x y) y y) y = true.
  Proof.
    unfold swap_check. split.
    - intros H. unpass. cbn [andb] in *. unpass. done.
    - intros (->&->&H1&H2&H3). dopass; [done|done|]. cbn [andb]. dopass. done.
  Qed.

  Lemma copy_assign_check_passes z y w b w' :
    passes (copy_assign_check S z y) w b w' <-> b = true /\
      w' = s_copy_assign S (s_copy_assign S w z y) z z /\ s_same S (s_copy_assign S w z y) z y = true /\
      s_same S (s_copy_assign S (s_copy_assign S w z y) z z) z y = true.
  Proof.
    unfold copy_assign_check. split.
    - intros H. unpass. done.
    - intros (->&->&H1&H2). dopass; [done|]. cbn iota. dopass. done.
  Qed.

  Lemma mutation_check_passes v y m w b w' :
    passes (mutation_check S v y m) w b w' <->
      let w1 := m (s_copy S w y v) v in let w2 := s_copy_assign S w1 v y in let w3 := m w2 v in
      b = tt /\ w' = s_destroy S w3 v /\ s_ne S w1 v y = true /\ s_same S w2 v y = true /\ s_ne S w3 v y = true.
  Proof.
    unfold mutation_check. cbv zeta. split.
    - intros H. unpass. done.
    - intros (->&->&H1&H2&H3). dopass; [done|]. cbn iota. dopass; [done|]. cbn iota. dopass. done.
  Qed.

  Lemma serialization_check_passes u y ly w b w' write read : s_serialize S = Some (write, read) ->
    passes (serialization_check S u y ly) w b w' <-> b = tt /\ w' = read w (write w y) u /\ ly (read w (write w y) u) u = true.
  Proof.
    unfold serialization_check. intros ->. split.
    - intros H. unpass. done.
    - intros (->&->&H). dopass. done.
  Qed.

  (** What the check of a regular type finds out; the worlds follow each other. *)
  Definition regular_facts (q : request S) (w : world S) : Prop :=
    equality_holds w 0 1 /\ match q_order S q with Some o => ordering_holds o w 0 1 | None => True end /\
    let like_x w o := s_best S w o 0 in let like_y w o := s_best S w o 1 in
    let w1 := s_copy S w 0 2 in
    let w2 := s_copy_assign S w1 2 1 in
    let w3 := s_copy_assign S w2 2 2 in
    let w4 := s_move S w3 2 3 in
    let w5 := s_destroy S (s_destroy S (s_move S w4 3 4) 3) 4 in
    let w6 := s_copy S (s_copy S w5 0 5) 1 6 in
    let w7 := s_move_assign S w6 5 6 in
    let w8 := s_copy S (s_copy S (s_destroy S w7 6) 0 7) 1 8 in
    let w9 := s_swap S w8 7 8 in
    let w10 := s_swap S w9 8 8 in
    let w11 := s_destroy S (s_destroy S w10 8) 7 in
    s_same S w1 2 0 = true /\ s_same S w2 2 1 = true /\ s_same S w3 2 1 = true /\
    like_y w4 3 = true /\ moved_from (q_moved_construction S q) w4 2 /\
    like_y w7 5 = true /\ moved_from (q_moved_assignment S q) w7 6 /\
    like_x w9 8 = true /\ like_y w9 7 = true /\ like_x w10 8 = true /\
    exists w12,
      match q_mutator S q with
      | Some m => let w1 := m (s_copy S w11 1 9) 9 in let w2 := s_copy_assign S w1 9 1 in let w3 := m w2 9 in
                  w12 = s_destroy S w3 9 /\ s_ne S w1 9 1 = true /\ s_same S w2 9 1 = true /\ s_ne S w3 9 1 = true
      | None => w12 = w11
      end /\
      forall write read, s_serialize S = Some (write, read) ->
        like_y (read (s_copy S w12 0 10) (write (s_copy S w12 0 10) 1) 10) 10 = true.

  Lemma regular_body_passes q w : (exists b w', passes (regular_body S q) w b w') <-> regular_facts q w.
  Proof.
    unfold regular_body, regular_facts. cbv zeta. split.
    - intros (b&w'&H). unpass.
      match goal with H : passes (prerequisites _ _ _ _ _) _ _ _ |- _ => apply prerequisites_passes in H as (->&->&?&_&?) end. unpass.
      match goal with H : passes (copy_assign_check _ _ _) _ _ _ |- _ => apply copy_assign_check_passes in H as (->&->&?&?) end. unpass.
      match goal with H : passes (move_construction _ _ _ _ _ _) _ _ _ |- _ => apply move_construction_passes in H as (->&->&?&?) end. unpass.
      match goal with H : passes (move_assign _ _ _ _ _) _ _ _ |- _ => apply move_assign_passes in H as (->&->&?&?) end.
      match goal with H : passes (swap_check _ _ _ _ _) _ _ _ |- _ => apply swap_check_passes in H as (->&->&?&?&?) end.
      do 12 (split; [assumption|]).
      destruct (q_mutator S q) as [m|].
      + match goal with H : passes (mutation_check _ _ _ _) _ _ _ |- _ => apply mutation_check_passes in H as (->&->&?&?&?) end.
        eexists. split; [split; [reflexivity|done]|]. intros write read Hs. match goal with H : passes (match s_serialize S with _ => _ end) _ _ _ |- _ => rewrite Hs in H; cbn iota in H end. unpass.
        match goal with H : passes (serialization_check _ _ _ _) _ _ _ |- _ => apply (proj1 (serialization_check_passes _ _ _ _ _ _ write read Hs)) in H; destruct H as (_&_&H) end.
        done.
      + unpass. eexists. split; [reflexivity|]. intros write read Hs. match goal with H : passes (match s_serialize S with _ => _ end) _ _ _ |- _ => rewrite Hs in H; cbn iota in H end. unpass.
        match goal with H : passes (serialization_check _ _ _ _) _ _ _ |- _ => apply (proj1 (serialization_check_passes _ _ _ _ _ _ write read Hs)) in H; destruct H as (_&_&H) end.
        done.
    - intros (H1&H2&H3&H4&H5&H6&H7&H8&H9&H10&H11&H12&w12&H13&H14).
      assert (exists w13, passes (match s_serialize S with
         | Some _ => bind S (act S (fun a => s_copy S a 0 10)) (fun _ => bind S (serialization_check S 10 1 (fun a o => s_best S a o 1))
                       (fun _ => act S (fun a => s_destroy S a 10)))
         | None => ret S tt
         end) w12 tt w13) as [w13 H15].
      { destruct (s_serialize S) as [[write read]|] eqn:Es.
        - eexists. act1. apply passes_bind. eexists _, _. split; [|apply passes_act; split; reflexivity].
          apply (serialization_check_passes _ _ _ _ _ _ write read Es). split; [reflexivity|]. split; [reflexivity|]. by apply H14.
        - eexists. apply passes_ret. split; reflexivity. }
      eexists _, _. via prerequisites_passes. act1. chk1. via copy_assign_check_passes.
      apply passes_bind. eexists _, _. split.
      { via move_construction_passes. apply passes_act. split; reflexivity. }
      cbn iota. act1. act1. via move_assign_passes. act1. act1. act1. via swap_check_passes. act1.
      apply passes_bind. exists tt, w12. split.
      { destruct (q_mutator S q) as [m|].
        - apply mutation_check_passes. done.
        - apply passes_ret. done. }
      apply passes_bind. exists tt, w13. split; [exact H15|]. act1. apply passes_ret. split; reflexivity.
  Qed.

  (** ... and that of one which cannot be copied *)
  Definition move_only_facts (q : request S) (c : clones S) (w : world S) : Prop :=
    equality_holds w 0 1 /\ (fst c w 0 = true /\ snd c w 1 = true) /\
    match q_order S q with Some o => ordering_holds o w 0 1 | None => True end /\
    let w1 := s_move S w 0 2 in
    let w2 := s_destroy S (s_move S w1 2 3) 2 in
    let w3 := s_swap S w2 3 1 in
    let w4 := s_swap S w3 1 1 in
    let w5 := s_move_assign S w4 1 3 in
    fst c w1 2 = true /\ moved_from (q_moved_construction S q) w1 0 /\
    fst c w3 1 = true /\ snd c w3 3 = true /\ fst c w4 1 = true /\
    snd c w5 1 = true /\ moved_from (q_moved_assignment S q) w5 3 /\
    forall write read, s_serialize S = Some (write, read) -> snd c (read w5 (write w5 11) 0) 0 = true.

  Lemma move_only_body_passes q c w : (exists b w', passes (move_only_body S q c) w b w') <-> move_only_facts q c w.
  Proof.
    unfold move_only_body, move_only_facts. cbv zeta. destruct c as [cx cy]. cbn [fst snd]. split.
    - intros (b&w'&H). unpass.
      match goal with H : passes (prerequisites _ _ _ _ _) _ _ _ |- _ => apply prerequisites_passes in H as (->&->&?&?&?) end. unpass.
      match goal with H : passes (move_construction _ _ _ _ _ _) _ _ _ |- _ => apply move_construction_passes in H as (->&->&?&?) end. unpass.
      match goal with H : passes (swap_check _ _ _ _ _) _ _ _ |- _ => apply swap_check_passes in H as (->&->&?&?&?) end.
      match goal with H : passes (move_assign _ _ _ _ _) _ _ _ |- _ => apply move_assign_passes in H as (->&->&?&?) end.
      do 10 (split; [assumption|]). intros write read Hs.
      match goal with H : passes (match s_serialize S with _ => _ end) _ _ _ |- _ => rewrite Hs in H; cbn iota in H end. unpass. assumption.
    - intros (H1&H2&H3&H4&H5&H6&H7&H8&H9&H10&H11).
      assert (exists w13, passes (match s_serialize S with
         | Some (write, read) => bind S (act S (fun a => read a (write a 11) 0)) (fun _ => bind S (check S Serialization (fun a => cy a 0)) (fun _ => ret S tt))
         | None => ret S tt
         end) (s_move_assign S (s_swap S (s_swap S (s_destroy S (s_move S (s_move S w 0 2) 2 3) 2) 3 1) 1 1) 1 3) tt w13) as [w13 H15].
      { destruct (s_serialize S) as [[write read]|] eqn:Es.
        - eexists. act1. apply passes_bind. eexists _, _. split; [apply passes_check; split; [by apply H11|split; reflexivity]|apply passes_ret; split; reflexivity].
        - eexists. apply passes_ret. split; reflexivity. }
      eexists _, _. via prerequisites_passes. via move_construction_passes. via swap_check_passes. via move_assign_passes.
      apply passes_bind. exists tt, w13. split; [exact H15|]. act1. apply passes_ret. split; reflexivity.
  Qed.

  Definition clones_found (c : option (clones S)) (w : world S) : Prop :=
    match c with Some (lx, ly) => lx w 0 = true /\ ly w 1 = true | None => True end.

  Lemma best_equivalence_passes c w b w' : passes (best_equivalence S c) w b w' <-> b = tt /\ w' = w /\ clones_found c w.
  Proof.
    unfold best_equivalence, clones_found. destruct c as [[lx ly]|]; split.
    - intros H. unpass. done.
    - intros (->&->&H1&H2). chk1. chk1. apply passes_ret. split; reflexivity.
    - intros H. unpass. done.
    - intros (->&->&_). by apply passes_ret.
  Qed.

  Lemma regular_semantics_passes q w :
    failures (regular_semantics S q) w = [] <-> clones_found (q_clones S q) w /\ regular_facts q w.
  Proof.
    rewrite passes_failures. unfold regular_semantics. split.
    - intros (b&w'&H). unpass. match goal with H : passes (best_equivalence _ _) _ _ _ |- _ => apply best_equivalence_passes in H as (->&->&?) end.
      split; [done|]. apply regular_body_passes. by eexists _, _.
    - intros [H1 (b&w'&H2)%regular_body_passes]. exists true, w'. apply passes_bind. exists tt, w. split; [by apply best_equivalence_passes|].
      apply passes_guarded. split; [done|]. by exists b.
  Qed.

  Lemma move_only_semantics_passes other q c w :
    failures (move_only_semantics S other q c) w = [] <-> move_only_facts q c w.
  Proof.
    rewrite passes_failures. unfold move_only_semantics. split.
    - intros (b&w'&H). unpass.
      assert (forall m a w1, passes (if other then best_equivalence S m else ret S tt) w a w1 -> w1 = w) as Hsame.
      { intros m a w1. destruct other; [by intros (_&->&_)%best_equivalence_passes|by intros [_ ->]%passes_ret]. }
      match goal with H : passes (if other then _ else _) _ _ _ |- _ => apply Hsame in H; subst end.
      apply move_only_body_passes. by eexists _, _.
    - intros H. assert (clones_found (Some c) w) as Hc. { destruct c, H as (_&[? ?]&_). done. }
      apply move_only_body_passes in H as (b&w'&H2). exists true, w'. apply passes_bind. exists tt, w. split.
      + destruct other; [by apply best_equivalence_passes|by apply passes_ret].
      + apply passes_guarded. split; [done|]. by exists b.
  Qed.

  Lemma semantics_returned {A} (m : code S A) (n : code S unit) w :
    (returned (bind S n (fun _ => guarded S m)) w = true <-> failures (guarded S m) (snd (fst (n w))) = []).
  Proof.
    unfold returned, failures, bind. destruct (n w) as [[a w1] l]. cbn [fst snd].
    unfold guarded. destruct (m w1) as [[b w2] [|t l']]; cbn; done.
  Qed.
End steps.
