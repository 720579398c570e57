From stdpp Require Import list.
From Coq Require Import ZArith QArith Qcanon.
From Verif.Base Require Import Outcome ListLemmas.
From Verif.Products Require Import Model.
From Verif.Quantities Require Import Model ModelSum ModelDifference SpecDifference.

Lemma Qc_minus_plus (x y : Qc) : (y + (x - y))%Qc = x.
Proof. ring. Qed.
Lemma Qc_chain (x y z : Qc) : ((x - y) + (y - z))%Qc = (x - z)%Qc.
Proof. ring. Qed.
Lemma Qc_anti (x y : Qc) : (y - x)%Qc = (- (x - y))%Qc.
Proof. ring. Qed.
Lemma subtract_undo xs ys : length xs = length ys -> zip_with Qcplus ys (subtract xs ys) = xs.
Proof. revert ys. induction xs as [|x xs IH]; intros [|y ys] H; try done. cbn. rewrite Qc_minus_plus. f_equal. apply IH. by injection H. Qed.
Lemma subtract_chain xs ys zs : length xs = length ys -> length ys = length zs -> zip_with Qcplus (subtract xs ys) (subtract ys zs) = subtract xs zs.
Proof.
  revert ys zs. induction xs as [|x xs IH]; intros [|y ys] [|z zs] H H'; try done. cbn. rewrite Qc_chain. f_equal. apply IH; [by injection H|by injection H'].
Qed.
Lemma subtract_anti xs ys : subtract ys xs = Qcopp <$> subtract xs ys.
Proof. revert ys. induction xs as [|x xs IH]; intros [|y ys]; try done. cbn. rewrite Qc_anti. f_equal. apply IH. Qed.

Section differences.
  Context (plain : bool) (ev : nat) (vec : nat -> bool) (base : nat -> option ty) (module : nat -> ty) (dims : nat -> nat).
  Context (other : list Qc -> res (list Qc)).
  Hypothesis Hp : proper_spaces ev vec base module.
  Local Notation free := (free ev vec).
  Local Notation free_module := (free_module ev vec module).
  Local Notation displacement := (displacement ev vec module).
  Local Notation common := (common base dims).
  Local Notation minus := (minus plain ev vec base module dims other).
  Local Notation shift := (shift ev vec base module other).
  Local Notation pointed := (pointed ev vec).
  Local Notation base_space := (base_space base).
  Local Notation to_base := (to_base base).
  Implicit Types a b d : place.

  Lemma module_idem t : free (free_module t) = true -> free_module (free_module t) = free_module t.
  Proof. intros H. unfold ModelDifference.free_module at 1. by rewrite H. Qed.
  Lemma pointed_module a : pointed a -> free (free_module (within a)) = true.
  Proof using Hp. intros (n & -> & Hn). unfold ModelDifference.free_module. rewrite Hn. by apply Hp. Qed.
  Lemma pointed_neq a b : pointed a -> pointed b -> within b <> free_module (within a).
  Proof using Hp. intros Ha (n & Hb & Hn) E. pose proof (pointed_module a Ha) as H. rewrite <-E, Hb in H. congruence. Qed.
  Lemma pointed_displacement a : pointed a -> a <> displacement a.
  Proof using Hp. intros Ha E. destruct (pointed_neq a a Ha Ha). by rewrite E at 1. Qed.

  Lemma common_spec t u c : common t u = Some c <-> base_space t = Some c /\ base_space u = Some c /\ extent dims t = extent dims u.
  Proof.
    unfold ModelDifference.common. destruct (base_space t) as [b|], (base_space u) as [b'|]; try (split; [done|]; intros (? & ? & ?); done).
    destruct (decide _) as [[-> E]|H].
    - split; [by intros [= ->]|]. intros (H & _). done.
    - split; [done|]. intros (H1 & H2 & H3). destruct H. split; congruence.
  Qed.
  Lemma base_point a c : pointed a -> base_space (within a) = Some c -> exists m, c = Base m /\ free c = false /\ base m = Some c /\ base_space (free_module (within a)) = Some (free_module c).
  Proof using Hp.
    intros (n & -> & Hn) Hb. cbn in Hb. destruct (base_named _ _ _ _ Hp n c Hb Hn) as (m & ->). exists m. split; [done|].
    split; [by rewrite (base_pointed _ _ _ _ Hp n _ Hb)|]. split; [exact (base_base _ _ _ _ Hp n _ Hb)|].
    unfold ModelDifference.free_module at 1. rewrite Hn. by apply (base_module _ _ _ _ Hp).
  Qed.
  Lemma module_free_of t : (exists n, t = Base n) -> free (free_module t) = true.
  Proof using Hp. intros (n & ->). unfold ModelDifference.free_module. destruct (free (Base n)) eqn:E; [done|]. by apply Hp. Qed.

  (** *** Differences of points *)
  Lemma minus_same a xs ys : pointed a -> minus a xs a ys = Yields (displacement a) (Ok (subtract xs ys)).
  Proof using Hp.
    intros Ha. unfold ModelDifference.minus, own_offered, same_offered, own_place. rewrite (bool_decide_eq_true_2 (_ /\ vetted a = _)) by (split; [by apply pointed_neq|done]).
    rewrite !decide_True by done. rewrite (bool_decide_eq_true_2 (a = a /\ _)) by (split; [done|by apply pointed_displacement]). by destruct plain.
  Qed.
  Lemma minus_across a xs b ys c : within b <> free_module (within a) -> vetted a = vetted b -> within a <> within b -> common (within a) (within b) = Some c ->
    minus a xs b ys = Yields (Place (free_module (free_module c)) Identity) (Ok (subtract xs ys)).
  Proof.
    intros H1 H2 H3 H4. unfold ModelDifference.minus, own_offered, own_place. rewrite bool_decide_eq_true_2 by done. rewrite !decide_False by done. rewrite H4. done.
  Qed.
  Lemma minus_points a xs b ys c : pointed a -> pointed b -> vetted a = vetted b -> within a <> within b ->
    base_space (within a) = Some c -> base_space (within b) = Some c -> extent dims (within a) = extent dims (within b) ->
    minus a xs b ys = Yields (Place (free_module c) Identity) (Ok (subtract xs ys)).
  Proof using Hp.
    intros Ha Hb Hg Hn H1 H2 H3. rewrite (minus_across a xs b ys c); [|by apply pointed_neq|done|done|by apply common_spec].
    destruct (base_point a c Ha H1) as (m & -> & Hf & _). rewrite module_idem by (apply module_free_of; eauto). done.
  Qed.
  Lemma minus_displacements a xs b ys c : pointed a -> pointed b -> within a <> within b -> free_module (within a) <> free_module (within b) ->
    base_space (within a) = Some c -> base_space (within b) = Some c -> extent dims (free_module (within a)) = extent dims (free_module (within b)) ->
    minus (displacement a) xs (displacement b) ys = Yields (Place (free_module c) Identity) (Ok (subtract xs ys)).
  Proof using Hp.
    intros Ha Hb Hn Hm H1 H2 H3. destruct (base_point a c Ha H1) as (m & -> & Hf & Hbm & Hba). destruct (base_point b _ Hb H2) as (m' & _ & _ & _ & Hbb).
    assert (free (free_module (Base m)) = true) as Hfr by (apply module_free_of; eauto).
    rewrite (minus_across _ xs _ ys (free_module (Base m))); cbn [within vetted ModelDifference.displacement].
    - rewrite (module_idem (Base m)) by done. by rewrite module_idem.
    - rewrite (module_idem (within a)) by (by apply pointed_module). congruence.
    - done.
    - done.
    - by apply common_spec.
  Qed.
  (** A point is subtracted from whatever it is: the numbers are. *)
  Lemma minus_value a xs b ys d r : pointed a -> pointed b -> minus a xs b ys = Yields d r ->
    r = Ok (subtract xs ys) /\ vetted a = vetted b /\ free (within d) = true /\ vetted d = Identity /\
    (within a = within b /\ within d = free_module (within a) \/
     exists c, base_space (within a) = Some c /\ base_space (within b) = Some c /\ extent dims (within a) = extent dims (within b) /\ within d = free_module c).
  Proof using Hp.
    intros Ha Hb. unfold ModelDifference.minus. destruct (own_offered plain ev vec base module dims a b) eqn:Eo.
    - intros [= <- <-]. split; [done|]. unfold own_offered in Eo. apply andb_true_iff in Eo as [[Hn Hg]%bool_decide_eq_true Eo]. split; [done|]. unfold own_place.
      destruct (decide (within a = within b)) as [E|E]; cbn [within vetted].
      + split; [by apply pointed_module|]. split; [done|]. by left.
      + destruct (common (within a) (within b)) as [c|] eqn:Ec; [|done]. apply common_spec in Ec as (H1 & H2 & H3).
        destruct (base_point a c Ha H1) as (m & -> & Hf & _). assert (free (free_module (Base m)) = true) as Hfr by (apply module_free_of; eauto).
        rewrite module_idem by done. split; [done|]. split; [done|]. right. by exists (Base m).
    - destruct (same_offered plain ev vec module a b) eqn:Es.
      + intros [= <- <-]. split; [done|]. unfold same_offered in Es. apply andb_true_iff in Es as [[-> _]%bool_decide_eq_true _]. split; [done|]. split; [by apply pointed_module|].
        split; [done|]. left. done.
      + destruct (converts base b (displacement a)) eqn:Ev; [|done]. exfalso. unfold converts in Ev. apply bool_decide_eq_true in Ev as [_ Ev]. cbn [within ModelDifference.displacement] in Ev.
        pose proof (pointed_module a Ha) as Hm. destruct Hb as (m & Hb & Hfm). rewrite Hb in Ev. unfold ModelDifference.to_base in Ev.
        assert (free (default (Base m) (base_space (Base m))) = false) as Hl.
        { cbn. destruct (base m) as [c|] eqn:Em; cbn; [|done]. rewrite (base_pointed _ _ _ _ Hp m c Em). done. }
        rewrite Ev in Hl. clear Ev. assert (forall t (b' : ty), free t = true -> base_space t = Some b' -> free b' = true) as Hbf.
        { intros t. destruct t as [n|t'|t']; cbn; intros b' Hf Hb'; [rewrite (base_pointed _ _ _ _ Hp n b' Hb'); done| |done].
          destruct (base_space t'); [|done]. injection Hb' as <-. done. }
        destruct (base_space (free_module (within a))) as [b'|] eqn:E; cbn in Hl; [|congruence]. rewrite (Hbf _ _ Hm E) in Hl. done.
  Qed.
  Lemma minus_antisymmetric a xs b ys d : pointed a -> pointed b -> minus a xs b ys = Yields d (Ok (subtract xs ys)) ->
    minus b ys a xs = Yields d (Ok (Qcopp <$> subtract xs ys)).
  Proof using Hp.
    intros Ha Hb E. rewrite <-subtract_anti. destruct (decide (a = b)) as [-> |Hab].
    { rewrite minus_same in E by done. injection E as <-. by apply minus_same. }
    unfold ModelDifference.minus in E. destruct (own_offered plain ev vec base module dims a b) eqn:Eo.
    - injection E as <-. unfold own_offered in Eo. apply andb_true_iff in Eo as [[Hn Hg]%bool_decide_eq_true Eo]. unfold own_place.
      destruct (decide (within a = within b)) as [Ew|Ew].
      + destruct Hab. destruct a, b. cbn in *. congruence.
      + destruct (common (within a) (within b)) as [c|] eqn:Ec; [|done]. apply common_spec in Ec as (H1 & H2 & H3).
        destruct (base_point a c Ha H1) as (m & -> & _). rewrite module_idem by (apply module_free_of; eauto). apply minus_points; try done; congruence.
    - unfold same_offered in E. rewrite (bool_decide_eq_false_2 (a = b /\ _)) in E by (intros []; done). cbn in E.
      destruct (converts base b (displacement a)) eqn:Ev; [|done].
      assert (exists r, minus a xs b ys = Yields a r) as (r & Er).
      { unfold ModelDifference.minus. rewrite Eo. unfold same_offered. rewrite (bool_decide_eq_false_2 (a = b /\ _)) by (intros []; done). cbn. rewrite Ev. eauto. }
      destruct (minus_value a xs b ys a r Ha Hb Er) as (_ & _ & Hf & _). destruct Ha as (n & Ea & Hn). rewrite Ea in Hf. congruence.
  Qed.

  (** *** Displacements undone and put together *)
  Lemma shift_displacement a xs ys : shift a xs (displacement a) ys = Yields a (validate other (vetted a) (zip_with Qcplus xs ys)).
  Proof.
    unfold ModelDifference.shift, converts, converted. rewrite bool_decide_eq_true_2 by done. by rewrite decide_True.
  Qed.
  Lemma minus_displacement a xs ys : pointed a -> minus a xs (displacement a) ys = Yields a (validate other (vetted a) (subtract xs ys)).
  Proof using Hp.
    intros Ha. unfold ModelDifference.minus, own_offered, same_offered. rewrite (bool_decide_eq_false_2 (_ /\ vetted a = _)) by (intros [H _]; by apply H).
    rewrite (bool_decide_eq_false_2 (_ /\ a <> _)) by (intros []; done). cbn [andb]. unfold converts, converted. rewrite bool_decide_eq_true_2 by done. by rewrite decide_True.
  Qed.
  Lemma shift_offered a xs b ys d r : shift a xs b ys = Yields d r -> d = a /\ vetted b = Identity /\ to_base (within b) = to_base (free_module (within a)).
  Proof.
    unfold ModelDifference.shift. destruct (converts base b (displacement a)) eqn:E; [|done]. intros [= <- _]. split; [done|].
    unfold converts in E. by apply bool_decide_eq_true in E.
  Qed.
  Lemma undo a xs ys : pointed a -> length xs = length ys -> accepted other (vetted a) xs ->
    onto shift a ys (minus a xs a ys) = Yields a (Ok xs).
  Proof using Hp.
    intros Ha Hl Hx. rewrite minus_same by done. cbn [onto]. rewrite shift_displacement, subtract_undo by done. by rewrite Hx.
  Qed.
  Lemma shift_base a xs b ys d zs m : pointed a -> pointed b -> pointed d -> vetted b = vetted d -> within b <> within d ->
    within a = Base m -> base m = Some (Base m) -> base_space (within b) = Some (Base m) -> base_space (within d) = Some (Base m) ->
    extent dims (within b) = extent dims (within d) ->
    onto shift a xs (minus b ys d zs) = Yields a (validate other (vetted a) (zip_with Qcplus xs (subtract ys zs))).
  Proof using Hp.
    intros Ha Hb Hd Hg Hn Em Hm H1 H2 H3. rewrite (minus_points b ys d zs (Base m)) by done. cbn [onto]. rewrite <-shift_displacement.
    unfold ModelDifference.displacement. by rewrite Em.
  Qed.
  Lemma chain a xs b ys d zs c : pointed a -> pointed b -> pointed d -> vetted a = vetted b -> vetted b = vetted d ->
    within a <> within b -> within b <> within d -> within a <> within d ->
    base_space (within a) = Some c -> base_space (within b) = Some c -> base_space (within d) = Some c ->
    extent dims (within a) = extent dims (within b) -> extent dims (within b) = extent dims (within d) ->
    length xs = length ys -> length ys = length zs ->
    exists e, minus a xs b ys = Yields e (Ok (subtract xs ys)) /\ onto shift e (subtract xs ys) (minus b ys d zs) = minus a xs d zs.
  Proof using Hp.
    intros Ha Hb Hd G1 G2 N1 N2 N3 B1 B2 B3 E1 E2 L1 L2. exists (Place (free_module c) Identity).
    rewrite (minus_points a xs b ys c), (minus_points b ys d zs c), (minus_points a xs d zs c) by (done || congruence). split; [done|]. cbn [onto].
    destruct (base_point a c Ha B1) as (m & -> & _). assert (free (free_module (Base m)) = true) as Hfr by (apply module_free_of; eauto).
    assert (displacement (Place (free_module (Base m)) Identity) = Place (free_module (Base m)) Identity) as Ed.
    { unfold ModelDifference.displacement. cbn [within]. by rewrite module_idem. }
    rewrite <-Ed at 2. rewrite shift_displacement, subtract_chain by done. done.
  Qed.
  Lemma chain_same a xs ys zs : pointed a -> length xs = length ys -> length ys = length zs ->
    onto shift (displacement a) (subtract xs ys) (minus a ys a zs) = minus a xs a zs.
  Proof using Hp.
    intros Ha L1 L2. rewrite !minus_same by done. cbn [onto]. assert (displacement (displacement a) = displacement a) as Ed.
    { unfold ModelDifference.displacement. cbn [within]. rewrite module_idem; [done|by apply pointed_module]. }
    rewrite <-Ed at 2. rewrite shift_displacement, subtract_chain by done. done.
  Qed.
End differences.

(** *** Lengths (2), widths (6) and heights (7); the displacements of the latter (8, 9) have names of their own, L892-L902. *)
Definition Diff_vec (n : nat) : bool := existsb (Nat.eqb n) [8; 9]%nat.
Definition Diff_base (n : nat) : option ty :=
  match n with 2 | 6 | 7 => Some (Base 2) | 8 | 9 => Some (Ads (Base 2)) | _ => None end%nat.
Definition Diff_module (n : nat) : ty := match n with 6 => Base 8 | 7 => Base 9 | _ => Ads (Base n) end%nat.
Definition Diff_dims (n : nat) : nat := 1.
Definition Diff_length : place := Place (Base 2) HalfLine.
Definition Diff_width : place := Place (Base 6) HalfLine.
Definition Diff_height : place := Place (Base 7) HalfLine.
Definition Diff_minus := minus false 0 Diff_vec Diff_base Diff_module Diff_dims Ok.
Definition Diff_shift := shift 0 Diff_vec Diff_base Diff_module Ok.
Lemma Diff_proper : proper_spaces 0 Diff_vec Diff_base Diff_module.
Proof.
  split.
  - intros n H. do 10 (destruct n as [|n]; [done|]). done.
  - intros n b. do 10 (destruct n as [|n]; [cbn; try done; by intros [= <-]|]). done.
  - intros n b. do 10 (destruct n as [|n]; [cbn; try done; by intros [= <-]|]). done.
  - intros n b. do 10 (destruct n as [|n]; [cbn; try done; intros [= <-]; eauto; done|]). done.
  - intros n b. do 10 (destruct n as [|n]; [cbn; try done; by intros [= <-]|]). done.
Qed.
Lemma Diff_pointed : pointed 0 Diff_vec Diff_length /\ pointed 0 Diff_vec Diff_width /\ pointed 0 Diff_vec Diff_height.
Proof. split; [by exists 2%nat|]. split; [by exists 6%nat|by exists 7%nat]. Qed.

Lemma undo_refuted : exists plain ev vec base module dims other a b x y,
  proper_spaces ev vec base module /\ pointed ev vec a /\ pointed ev vec b /\ accepted other (vetted a) [x] /\ accepted other (vetted b) [y] /\
  (exists d, minus plain ev vec base module dims other a [x] b [y] = Yields d (Ok [(x - y)%Qc])) /\
  onto (shift ev vec base module other) b [y] (minus plain ev vec base module dims other a [x] b [y]) = Yields b NoFuel.
Proof.
  exists false, 0%nat, Diff_vec, Diff_base, Diff_module, Diff_dims, Ok, Diff_width, Diff_height, (Q2Qc 3), (Q2Qc 2).
  split; [exact Diff_proper|]. split; [apply Diff_pointed|]. split; [apply Diff_pointed|]. split; [by vm_compute|]. split; [by vm_compute|].
  split; [by exists (Place (Ads (Base 2)) Identity); vm_compute|by vm_compute].
Qed.
Lemma chain_refuted : exists plain ev vec base module dims other a b x y z e,
  proper_spaces ev vec base module /\ pointed ev vec a /\ pointed ev vec b /\
  minus plain ev vec base module dims other a [x] a [y] = Yields e (Ok [(x - y)%Qc]) /\
  (exists d, minus plain ev vec base module dims other a [y] b [z] = Yields d (Ok [(y - z)%Qc])) /\
  onto (shift ev vec base module other) e [(x - y)%Qc] (minus plain ev vec base module dims other a [y] b [z]) = Yields e NoFuel /\
  onto (minus plain ev vec base module dims other) e [(x - y)%Qc] (minus plain ev vec base module dims other b [z] a [y]) =
    minus plain ev vec base module dims other a [x] b [z].
Proof.
  exists false, 0%nat, Diff_vec, Diff_base, Diff_module, Diff_dims, Ok, Diff_width, Diff_height, (Q2Qc 3), (Q2Qc 2), (Q2Qc 7), (Place (Base 8) Identity).
  split; [exact Diff_proper|]. split; [apply Diff_pointed|]. split; [apply Diff_pointed|]. split; [by vm_compute|].
  split; [by exists (Place (Ads (Base 2)) Identity); vm_compute|]. split; [by vm_compute|]. by vm_compute.
Qed.
