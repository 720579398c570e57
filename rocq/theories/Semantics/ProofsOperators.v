(** The checks of operators; types with faults which the checks do not find. *)
From stdpp Require Import list.
From Verif.Base Require Import Compare.
From Verif.Semantics Require Import Model Spec Proofs ProofsRegular ProofsExact.

Lemma prerequisites_exact (S : subject) order x y c w :
  failures (prerequisites S order x y c) w = [] <->
    equality_holds w x y /\ match c with Some (lx, ly) => lx w x = true /\ ly w y = true | None => True end /\
    match order with Some o => ordering_holds o w x y | None => True end.
Proof.
  rewrite passes_failures. split.
  - intros (b&w'&H). by apply prerequisites_passes in H as (_&_&?&?&?).
  - intros (H1&H2&H3). exists true, w. by apply prerequisites_passes.
Qed.

Definition plain : operations nat := {|
  t_copy v := v; t_assign _ v := v; t_self_assign v := v; t_move v := (v, 0); t_move_assign _ v := (v, 0); t_swap u v := (v, u);
  t_self_swap v := v; t_serialize := Some (fun v => [v], fun s _ => match s with v :: _ => v | [] => 0 end) |}.

Lemma plain_faithful_regular : regular plain.
Proof. split; try done. by intros write read u v [= <- <-] _. Qed.

(** [==] is always true, and the copy constructor makes default objects *)
Definition careless : subject := {|
  world := nat -> nat; stream := unit;
  s_eq _ _ _ := true; s_ne w a b := negb (Nat.eqb (w a) (w b));
  s_lt w a b := Nat.ltb (w a) (w b); s_le w a b := Nat.leb (w a) (w b); s_gt w a b := Nat.ltb (w b) (w a); s_ge w a b := Nat.leb (w b) (w a);
  s_three := None; s_same _ _ _ := true; s_best _ _ _ := true;
  s_copy w s d := set w d 0; s_move w s d := set w d 0; s_copy_assign w d s := set w d 0; s_move_assign w d s := set w d 0;
  s_swap w a b := w; s_destroy w _ := w; s_serialize := None |}.
Definition simple_request (S : subject) (o : option comparison) : request S := {|
  q_order := o; q_clones := None; q_moved_construction := None; q_moved_assignment := None; q_mutator := None |}.

Lemma careless_passes (w : nat -> nat) :
  w 0 < w 1 -> failures (regular_semantics careless (simple_request careless (Some Lt))) w = [].
Proof.
  intros Hw. apply regular_semantics_passes. split; [done|].
  assert (w 0 <> w 1) as Hd by lia. apply Nat.eqb_neq in Hd. assert (Nat.ltb (w 0) (w 1) = true) as Hl by (apply Nat.ltb_lt; lia).
  assert (Nat.leb (w 0) (w 1) = true) as Hl' by (apply Nat.leb_le; lia).
  unfold regular_facts, equality_holds, ordering_holds, order_holds, three_consistent, moved_from. cbv zeta.
  cbn -[Nat.ltb Nat.leb Nat.eqb]. rewrite !Nat.eqb_refl, !Nat.ltb_irrefl, !Nat.leb_refl, Hd, Hl, Hl'. cbn. repeat split; try done.
  eexists. split; [reflexivity|]. done.
Qed.

(** A type for which each of two different values is less than the other *)
Definition cyclic : subject := {|
  world := nat -> nat; stream := unit;
  s_eq w a b := bool_decide (w a = w b); s_ne w a b := negb (bool_decide (w a = w b));
  s_lt w a b := negb (bool_decide (w a = w b)); s_le _ _ _ := true; s_gt w a b := negb (bool_decide (w a = w b)); s_ge _ _ _ := true;
  s_three := None; s_same w a b := bool_decide (w a = w b); s_best w a b := bool_decide (w a = w b);
  s_copy w s d := set w d (w s); s_move w s d := set w d (w s); s_copy_assign w d s := set w d (w s); s_move_assign w d s := set w d (w s);
  s_swap w a b := set2 w a b (w b, w a); s_destroy w _ := w; s_serialize := None |}.
Lemma cyclic_passes (w : nat -> nat) o :
  w 0 <> w 1 -> o <> Eq -> failures (regular_semantics cyclic (simple_request cyclic (Some o))) w = [].
Proof.
  intros Hd Ho. apply regular_semantics_passes. split; [done|]. assert (w 1 <> w 0) as Hd' by congruence.
  assert (forall k, bool_decide (w k = w k) = true) as Hr by (intros; by apply bool_decide_eq_true).
  apply (bool_decide_eq_false_2 _) in Hd. apply (bool_decide_eq_false_2 _) in Hd'.
  unfold regular_facts, equality_holds, ordering_holds, order_holds, three_consistent, moved_from. cbv zeta. cbn.
  rewrite !Hr, Hd, Hd'. cbn. repeat split; try done.
  - by destruct o.
  - eexists. split; [reflexivity|]. done.
Qed.

(** A copy constructor which changes the object copied from, and the copy alike *)
Definition wearing : subject := {|
  world := nat -> nat; stream := unit;
  s_eq w a b := Nat.eqb (w a) (w b); s_ne w a b := negb (Nat.eqb (w a) (w b));
  s_lt w a b := Nat.ltb (w a) (w b); s_le w a b := Nat.leb (w a) (w b); s_gt w a b := Nat.ltb (w b) (w a); s_ge w a b := Nat.leb (w b) (w a);
  s_three := None; s_same w a b := Nat.eqb (w a) (w b); s_best w a b := Nat.eqb (w a) (w b);
  s_copy w s d := set2 w s d (w s + 1, w s + 1); s_move w s d := set w d (w s); s_copy_assign w d s := set w d (w s);
  s_move_assign w d s := set w d (w s); s_swap w a b := set2 w a b (w b, w a); s_destroy w _ := w; s_serialize := None |}.

(** Objects with a part of their own and a part which all of them share; the mutator changes both. *)
Definition sharing : subject := {|
  world := (nat -> nat) * nat; stream := unit;
  s_eq w a b := Nat.eqb (fst w a) (fst w b); s_ne w a b := negb (Nat.eqb (fst w a) (fst w b));
  s_lt _ _ _ := false; s_le _ _ _ := false; s_gt _ _ _ := false; s_ge _ _ _ := false;
  s_three := None; s_same w a b := Nat.eqb (fst w a) (fst w b); s_best w a b := Nat.eqb (fst w a) (fst w b);
  s_copy w s d := (set (fst w) d (fst w s), snd w); s_move w s d := (set (fst w) d (fst w s), snd w);
  s_copy_assign w d s := (set (fst w) d (fst w s), snd w); s_move_assign w d s := (set (fst w) d (fst w s), snd w);
  s_swap w a b := (set2 (fst w) a b (fst w b, fst w a), snd w); s_destroy w _ := w; s_serialize := None |}.
Definition sharing_value (w : world sharing) (o : nat) : nat * nat := (fst w o, snd w).
Definition sharing_mutator (w : world sharing) (o : nat) : world sharing := (set (fst w) o (fst w o + 1), snd w + 1).
Definition sharing_request : request sharing := {|
  q_order := None; q_clones := None; q_moved_construction := None; q_moved_assignment := None; q_mutator := Some sharing_mutator |}.
Lemma sharing_eq w a b : s_eq sharing w a b = true <-> sharing_value w a = sharing_value w b.
Proof. unfold sharing_value. cbn. rewrite Nat.eqb_eq. split; [by intros ->|by intros [=]]. Qed.

Lemma plain_faithful : faithful (machine Nat.compare plain) (fun w o => w o).
Proof.
  assert (forall (w : nat -> nat) o v, set w o v o = v) as H1 by (intros; unfold set; by rewrite Nat.eqb_refl).
  assert (forall (w : nat -> nat) o v k, k <> o -> set w o v k = w k) as H2.
  { intros w o v k Hk. unfold set. by apply Nat.eqb_neq in Hk as ->. }
  split; cbn; unfold set2; cbn.
  - intros. by rewrite bool_decide_eq_true.
  - intros. by rewrite negb_true_iff, bool_decide_eq_false.
  - intros. by rewrite bool_decide_eq_true.
  - intros. by rewrite bool_decide_eq_true.
  - intros. by rewrite H1.
  - intros. by rewrite H2.
  - intros w d s. rewrite H1. by destruct (Nat.eqb d s).
  - intros. by rewrite H2.
  - intros. by rewrite H1.
  - intros. by rewrite !H2.
  - intros. by rewrite H1.
  - intros. by rewrite !H2.
  - intros w a b. destruct (Nat.eqb a b) eqn:E.
    + apply Nat.eqb_eq in E as ->. by rewrite H1.
    + apply Nat.eqb_neq in E. rewrite H1. rewrite H2 by done. by rewrite H1.
  - intros w a b o Ha Hb. destruct (Nat.eqb a b); [by rewrite H2|by rewrite !H2].
  - done.
  - intros write read w a b [= <- <-]. by rewrite H1.
  - intros write read w a b o [= <- <-] Ho. by rewrite H2.
Qed.

(** ** Nothing is checked if the prerequisites do not hold *)

Section stops.
  Context {S : subject}.
  Definition honest (m : code S bool) : Prop := forall w, returned m w = true -> failures m w = [].
  Lemma honest_check t f : honest (check S t f).
  Proof. intros w. unfold returned, failures, check. cbn. by intros ->. Qed.
  Lemma honest_ret b : honest (ret S b).
  Proof. done. Qed.
  Lemma honest_guarded {A} (m : code S A) : honest (guarded S m).
  Proof. intros w. apply guarded_returned. Qed.
  Lemma honest_if (m k : code S bool) : honest m -> honest k -> honest (bind S m (fun b => if b then k else ret S false)).
  Proof.
    intros Hm Hk w. specialize (Hm w). unfold returned, failures, bind in *. destruct (m w) as [[[] w'] l]; cbn in *; [|done].
    specialize (Hk w'). unfold returned, failures in Hk. destruct (k w') as [[b w''] l']. cbn in *. intros Hb. by rewrite Hm, Hk.
  Qed.
  Lemma honest_test f (k k' : code S bool) : honest k -> honest k' -> honest (bind S (test S f) (fun b => if b then k else k')).
  Proof.
    intros Hk Hk' w. specialize (Hk w). specialize (Hk' w). unfold returned, failures, bind, test in *. cbn. destruct (f w).
    - destruct (k w) as [[b w''] l']. by cbn in *.
    - destruct (k' w) as [[b w''] l']. by cbn in *.
  Qed.
  Lemma honest_both (m m' : code S bool) (k : bool -> code S bool) :
    honest m -> honest m' -> honest (k true) -> (forall w, returned (k false) w = false) ->
    honest (bind S m (fun a => bind S m' (fun b => k (a && b)))).
  Proof.
    intros Hm Hm' Hk Hf w. specialize (Hm w). unfold returned, failures, bind in *. destruct (m w) as [[a w'] l]. cbn in *.
    specialize (Hm' w'). unfold returned, failures in Hm'. destruct (m' w') as [[b w''] l']. cbn in *. specialize (Hk w''). specialize (Hf w'').
    unfold returned, failures in Hk, Hf.
    destruct a, b; cbn in *; [|by destruct (k false w'') as [[c ?] ?]; cbn in *; intros ->..].
    destruct (k true w'') as [[c w3] l'']. cbn in *. intros Hc. by rewrite Hm, Hm', Hk.
  Qed.
  Lemma honest_prerequisites order x y c : honest (prerequisites S order x y c).
  Proof.
    unfold prerequisites, clone_prerequisites, equality_prerequisites. apply honest_if.
    - apply honest_if.
      + apply (honest_both _ _ (fun b => if b then _ else _)); [apply honest_guarded..|apply honest_check|done].
      + destruct c as [[lx ly]|]; [|apply honest_ret]. apply (honest_both _ _ (fun b => ret S b)); [apply honest_check..|apply honest_ret|done].
    - destruct order as [o|]; [|apply honest_ret]. apply honest_if; [apply honest_check|]. apply honest_if; [|apply honest_check].
      apply honest_if; [apply honest_guarded|]. apply honest_test; apply honest_guarded.
  Qed.
  Lemma stops {A} (m : code S bool) (k : code S A) (a : A) w :
    honest m -> failures m w <> [] -> bind S m (fun b => if b then k else ret S a) w = (a, snd (fst (m w)), failures m w).
  Proof.
    intros Hm Hf. specialize (Hm w). unfold returned, failures, bind in *. destruct (m w) as [[[] w'] l]; cbn in *; [by apply Hf in Hm|].
    by rewrite app_nil_r.
  Qed.
  Lemma regular_stops q w : failures (prerequisites S (q_order S q) 0 1 None) w <> [] ->
    failures (regular_body S q) w = failures (prerequisites S (q_order S q) 0 1 None) w /\
    snd (fst (regular_body S q w)) = snd (fst (prerequisites S (q_order S q) 0 1 None w)).
  Proof.
    intros Hf. unfold regular_body, failures at 1. rewrite (stops _ _ _ _ (honest_prerequisites _ _ _ _) Hf). done.
  Qed.
  Lemma move_only_stops q c w : failures (prerequisites S (q_order S q) 0 1 (Some c)) w <> [] ->
    failures (move_only_body S q c) w = failures (prerequisites S (q_order S q) 0 1 (Some c)) w /\
    snd (fst (move_only_body S q c w)) = snd (fst (prerequisites S (q_order S q) 0 1 (Some c) w)).
  Proof.
    intros Hf. unfold move_only_body, failures at 1. rewrite (stops _ _ _ _ (honest_prerequisites _ _ _ _) Hf). done.
  Qed.
End stops.
