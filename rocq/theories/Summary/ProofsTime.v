(** Proofs about durations. *)
From Coq Require Import Ascii String ZArith Lia.
From stdpp Require Import list.
From Verif.Base Require Import Outcome ListLemmas.
From Verif.Text Require Import Model.
From Verif.Summary Require Import Model Spec.
Local Notation "⌜ s ⌝" := (list_ascii_of_string s%string).
Local Notation length := List.length.
Local Open Scope Z_scope.

Lemma nearest_even_ok p q : 0 < q -> 2 * Z.abs (nearest_even p q * q - p) <= q.
Proof.
  intros Hq. unfold nearest_even. pose proof (Z.div_mod p q ltac:(lia)) as E. pose proof (Z.mod_pos_bound p q Hq) as B.
  set (r := p / q) in *. set (t := p mod q) in *. clearbody r t. subst p.
  destruct (Z.ltb_spec (2 * t) q); [replace (r * q - (q * r + t)) with (- t) by ring; lia|].
  destruct (Z.ltb_spec q (2 * t)); [replace ((r + 1) * q - (q * r + t)) with (q - t) by ring; lia|].
  destruct (Z.even r); [replace (r * q - (q * r + t)) with (- t) by ring; lia|replace ((r + 1) * q - (q * r + t)) with (q - t) by ring; lia].
Qed.
Lemma nearest_even_ge p q k : 0 < q -> k * q <= p -> k <= nearest_even p q.
Proof. intros Hq H. pose proof (nearest_even_ok p q Hq) as E. destruct (Z.le_gt_cases k (nearest_even p q)) as [|Hk]; [done|]. nia. Qed.
Lemma nearest_even_le p q k : 0 < q -> p <= k * q -> nearest_even p q <= k.
Proof. intros Hq H. pose proof (nearest_even_ok p q Hq) as E. destruct (Z.le_gt_cases (nearest_even p q) k) as [|Hk]; [done|]. nia. Qed.
Lemma nearest_even_1 p : nearest_even p 1 = p.
Proof. apply Z.le_antisymm; [apply nearest_even_le; lia|apply nearest_even_ge; lia]. Qed.

Lemma scale_ok n d : 0 < n -> 0 < d -> n < 2 ^ 53 * d -> (n < 2 ^ 52 * d \/ d = 1) -> 0 <= double_scale n d /\ 2 ^ 52 * d <= n * 2 ^ double_scale n d.
Proof.
  intros Hn Hd Hlt Hlt'. unfold double_scale. pose proof (Z.log2_spec n Hn) as [A1 A2]. pose proof (Z.log2_spec d Hd) as [B1 B2].
  pose proof (Z.log2_nonneg n) as A0. pose proof (Z.log2_nonneg d) as B0.
  set (a := Z.log2 n) in *. set (b := Z.log2 d) in *.
  assert (0 <= 52 - (a - b)) as Hs.
  { destruct Hlt' as [Hlt'|E].
    - assert (2 ^ a < 2 ^ (53 + b)) as L; [|apply Z.pow_lt_mono_r_iff in L; lia].
      replace (53 + b) with (52 + Z.succ b) by lia. rewrite (Z.pow_add_r 2 52) by lia. nia.
    - assert (b = 0) as -> by (unfold b; by rewrite E).
      assert (2 ^ a < 2 ^ 53) as L; [lia|]. apply Z.pow_lt_mono_r_iff in L; lia. }
  rewrite (Z.max_r 0 (52 - (a - b))), (Z.max_l 0 (- (52 - (a - b)))) by lia. rewrite Z.mul_1_r.
  destruct (Z.ltb_spec (n * 2 ^ (52 - (a - b))) (2 ^ 52 * d)) as [H|H]; [|lia]. split; [lia|].
  transitivity (2 ^ 52 * 2 ^ Z.succ b); [nia|]. rewrite <- Z.pow_add_r by lia.
  transitivity (2 ^ a * 2 ^ (52 - (a - b) + 1)); [|nia]. rewrite <- Z.pow_add_r by lia. apply Z.pow_le_mono_r; lia.
Qed.

Lemma double_of_int d : 0 < d < 2 ^ 53 -> exists c, 0 < c /\ num (double_of d 1) = d * c /\ den (double_of d 1) = c.
Proof.
  intros [Hd Hlt]. destruct (scale_ok d 1) as [Hs _]; [lia..|]. unfold num, den, double_of. cbn [fst snd].
  set (s := double_scale d 1) in *. rewrite (Z.max_r 0 s), (Z.max_l 0 (- s)) by lia. exists (2 ^ s). split; [lia|].
  replace (1 * 2 ^ 0) with 1 by lia. rewrite nearest_even_1. lia.
Qed.
Lemma double_of_ok n u c : 0 < n -> 0 < u -> 0 < c -> n < 2 ^ 52 * u ->
  let y := double_of (n * c) (c * u) in
  0 < den y /\ 2 * Z.abs (num y * u - n * den y) <= u /\ 2 ^ 52 * u <= n * den y.
Proof.
  intros Hn Hu Hc Hlt y. destruct (scale_ok (n * c) (c * u)) as [Hs Hs2]; [nia|nia|nia|left; nia|]. unfold y, num, den, double_of. cbn [fst snd].
  set (s := double_scale (n * c) (c * u)) in *. rewrite (Z.max_r 0 s), (Z.max_l 0 (- s)) by lia. rewrite !Z.mul_1_r.
  assert (0 < 2 ^ s) as Hp by lia. set (t := 2 ^ s) in *. clearbody t.
  pose proof (nearest_even_ok (n * c * t) (c * u) ltac:(nia)) as E. set (m := nearest_even _ _) in *. clearbody m.
  split; [done|]. split; [|nia].
  replace (m * (c * u) - n * c * t) with (c * (m * u - n * t)) in E by ring. rewrite Z.abs_mul, (Z.abs_eq c) in E by lia. nia.
Qed.

Lemma exponent_ok fuel p q : 0 < q <= p -> p < q * 10 ^ Z.of_nat (S fuel) ->
  q * 10 ^ Z.of_nat (exponent fuel p q) <= p < q * 10 ^ Z.of_nat (S (exponent fuel p q)).
Proof.
  revert q. induction fuel as [|fuel IH]; intros q Hq Hp; cbn [exponent]; [rewrite Z.mul_1_r; lia|].
  destruct (Z.leb_spec (q * 10) p) as [H|H].
  - rewrite (Nat2Z.inj_succ (exponent _ _ _)), (Nat2Z.inj_succ (S (exponent _ _ _))). rewrite (Nat2Z.inj_succ (S fuel)) in Hp.
    rewrite !Z.pow_succ_r by lia. rewrite Z.pow_succ_r in Hp by lia. rewrite !Z.mul_assoc. rewrite Z.mul_assoc in Hp. rewrite !Z.mul_assoc in IH || idtac.
    apply (IH (q * 10)); lia.
  - cbn. lia.
Qed.

Section near.
  Context (n u u' M t : Z).
  Hypothesis Hu : u = 100 * u'.
  Hypothesis Hu' : 0 < u'.
  Hypothesis Hn : u <= n.
  Hypothesis Ht : u < t.
  Hypothesis HM : 2 * Z.abs (M * u - n * t) <= u.

  (** Sums of the two errors. *)
  Lemma two_errors D W : 2 * Z.abs (D * W * t - M * u) <= W * t -> 0 < W -> 2 * Z.abs (D * W - n) <= W.
  Proof using All.
    intros H HW. assert (2 * Z.abs ((D * W - n) * t) <= W * t + u) as L.
    { replace ((D * W - n) * t) with ((D * W * t - M * u) + (M * u - n * t)) by ring. lia. }
    rewrite Z.abs_mul, (Z.abs_eq t) in L by lia. nia.
  Qed.
  Lemma decade_ge k : 0 <= k -> u * k <= n -> t * k <= M.
  Proof using All. intros Hk H. assert (2 * (M * u) >= 2 * (t * k) * u - u) by nia. nia. Qed.
  Lemma decade_lt k : 0 <= k -> n < u * k -> M < t * k.
  Proof using All. intros Hk H. assert (2 * (M * u) < 2 * (t * k * u)); [|nia]. assert (n * t <= (u * k - 1) * t) by nia. nia. Qed.

  Lemma three_ok e : (e <= 9)%nat -> u * 10 ^ Z.of_nat e <= n < u * 10 ^ Z.of_nat (S e) ->
    exists m x, three_digits M t = (m, x) /\ 100 <= m < 1000 /\ 2 * Z.abs (m * 10 ^ Z.of_nat x * u - n * 100) <= u * 10 ^ Z.of_nat e /\
      (x = e \/ (m = 100 /\ x = S e)) /\ (x = e <-> 2 * n < 1999 * (u' * 10 ^ Z.of_nat e) \/ (2 * n = 1999 * (u' * 10 ^ Z.of_nat e) /\ x = e)).
  Proof using All.
    intros He [H1 H2]. unfold three_digits.
    assert (t * 10 ^ Z.of_nat e <= M) as D1 by (apply decade_ge; [lia|done]).
    assert (M < t * 10 ^ Z.of_nat (S e)) as D2 by (apply decade_lt; [lia|done]).
    assert (exponent 20 M t = e) as ->.
    { assert (t <= M) by nia. assert (M < t * 10 ^ Z.of_nat 21) as D3.
      { eapply Z.lt_le_trans; [exact D2|]. apply Z.mul_le_mono_nonneg_l; [lia|]. apply Z.pow_le_mono_r; lia. }
      destruct (exponent_ok 20 M t) as [E1 E2]; [lia|done|]. set (x := exponent 20 M t) in *. clearbody x.
      assert (10 ^ Z.of_nat e < 10 ^ Z.of_nat (S x)) as L1 by nia. assert (10 ^ Z.of_nat x < 10 ^ Z.of_nat (S e)) as L2 by nia.
      apply Z.pow_lt_mono_r_iff in L1; [|lia..]. apply Z.pow_lt_mono_r_iff in L2; lia. }
    set (m := if (e <=? 2)%nat then _ else _).
    assert (100 <= m <= 1000 /\ 2 * Z.abs (m * (u' * 10 ^ Z.of_nat e) - n) <= u' * 10 ^ Z.of_nat e) as [Hm Hnear].
    { unfold m. clear m. rewrite Nat2Z.inj_succ, Z.pow_succ_r in D2, H2 by lia. destruct (Nat.leb_spec e 2) as [Hl|Hl].
      - assert (10 ^ (2 - Z.of_nat e) * 10 ^ Z.of_nat e = 100) as E by (rewrite <- Z.pow_add_r by lia; by replace (2 - Z.of_nat e + Z.of_nat e) with 2 by lia).
        assert (0 < 10 ^ Z.of_nat e) by lia. assert (0 < 10 ^ (2 - Z.of_nat e)) by lia.
        set (a := 10 ^ Z.of_nat e) in *. set (b := 10 ^ (2 - Z.of_nat e)) in *. clearbody a b.
        split; [split; [apply nearest_even_ge; nia|apply nearest_even_le; nia]|].
        pose proof (nearest_even_ok (M * b) t ltac:(lia)) as N. set (D := nearest_even _ _) in *. clearbody D.
        apply two_errors; [|nia].
        assert (D * (u' * a) * t - M * u = (D * t - M * b) * (u' * a)) as -> by (rewrite Hu, <- E; ring).
        rewrite Z.abs_mul, (Z.abs_eq (u' * a)) by nia. nia.
      - assert (10 ^ Z.of_nat e = 100 * 10 ^ (Z.of_nat e - 2)) as E by (replace 100 with (10 ^ 2) by done; rewrite <- Z.pow_add_r by lia; f_equal; lia).
        assert (0 < 10 ^ (Z.of_nat e - 2)) by lia. rewrite E in *. set (b := 10 ^ (Z.of_nat e - 2)) in *. clearbody b.
        split; [split; [apply nearest_even_ge; nia|apply nearest_even_le; nia]|].
        pose proof (nearest_even_ok M (t * b) ltac:(nia)) as N. set (D := nearest_even _ _) in *. clearbody D.
        apply two_errors; [|nia].
        assert (D * (u' * (100 * b)) * t - M * u = (D * (t * b) - M) * u) as -> by (rewrite Hu; ring).
        rewrite Z.abs_mul, (Z.abs_eq u) by lia. nia. }
    clearbody m. set (a := 10 ^ Z.of_nat e) in *. assert (0 < a) by (unfold a; lia).
    assert (10 ^ Z.of_nat (S e) = 10 * a) as EA by (unfold a; rewrite Nat2Z.inj_succ, Z.pow_succ_r by lia; done).
    destruct (Z.eqb_spec m 1000) as [-> |Hne].
    - exists 100, (S e). split; [done|]. split; [lia|]. rewrite EA. clearbody a. split; [|split; [by right|]].
      + replace (100 * (10 * a) * u - n * 100) with (100 * (1000 * (u' * a) - n)) by (rewrite Hu; ring). rewrite Z.abs_mul. rewrite Hu. lia.
      + split; [lia|]. intros [H'|[_ H']]; [|lia]. lia.
    - exists m, e. split; [done|]. split; [lia|]. fold a. clearbody a. split; [|split; [by left|]].
      + replace (m * a * u - n * 100) with (100 * (m * (u' * a) - n)) by (rewrite Hu; ring). rewrite Z.abs_mul. rewrite Hu. lia.
      + split; [|done]. intros _. assert (m <= 999) by lia. assert (2 * n <= 1999 * (u' * a)) by nia. destruct (Z.eq_dec (2 * n) (1999 * (u' * a))); [right|left]; lia.
  Qed.
End near.

(** ** The texts of all of the numbers *)
Definition layout (m : Z) (e : nat) : text :=
  let ds := number m in
  if (e <=? 2)%nat then stripped (take (S e) ds ++ ⌜"."⌝ ++ drop (S e) ds)
  else stripped (take 1 ds ++ ⌜"."⌝ ++ drop 1 ds) ++ ⌜"e+"⌝ ++ (if (e <? 10)%nat then ⌜"0"⌝ else []) ++ number (Z.of_nat e).
Definition layout_ok (m : Z) (e : nat) : bool :=
  let t := layout m e in
  match read_number t with
  | Some (v, k, x) => (v * 10 ^ x * 100 =? m * 10 ^ Z.of_nat e * 10 ^ k) && (0 <=? k) && (0 <=? x)
                      && short t && eqb (bool_decide ("e"%char ∈ t)) (2 <? e)%nat
  | None => false
  end.
Definition all_layouts : bool :=
  forallb (fun m => forallb (fun e => layout_ok (Z.of_nat m + 100) e) (seq 0 11)) (seq 0 900).
Lemma all_layouts_ok : all_layouts = true.
Proof. vm_compute. reflexivity. Qed.
Lemma layouts m e : 100 <= m < 1000 -> (e <= 10)%nat -> layout_ok m e = true.
Proof.
  intros Hm He. pose proof all_layouts_ok as H. unfold all_layouts in H. rewrite forallb_forall in H.
  specialize (H (Z.to_nat (m - 100))). rewrite in_seq in H. specialize (H ltac:(lia)). rewrite forallb_forall in H.
  specialize (H e). rewrite in_seq in H. specialize (H ltac:(lia)). replace (Z.of_nat (Z.to_nat (m - 100)) + 100) with m in H by lia. done.
Qed.

Lemma time_ok u' n e : 0 < u' -> 100 * u' <= n < 2 ^ 52 -> (e <= 9)%nat ->
  100 * u' * 10 ^ Z.of_nat e <= n < 100 * u' * 10 ^ Z.of_nat (S e) ->
  exists v k x, read_number (to_string (100 * u') n) = Some (v, k, x) /\ 0 <= k /\ 0 <= x /\
    200 * Z.abs (v * 10 ^ x * (100 * u') - n * 10 ^ k) <= 100 * u' * 10 ^ Z.of_nat e * 10 ^ k /\
    short (to_string (100 * u') n) = true /\
    (2 * n < 1999 * u' * 10 ^ Z.of_nat e -> (e <= 2)%nat -> "e"%char ∉ to_string (100 * u') n) /\
    (1999 * u' * 10 ^ Z.of_nat e < 2 * n -> (2 <= e)%nat -> "e"%char ∈ to_string (100 * u') n) /\
    ((3 <= e)%nat -> "e"%char ∈ to_string (100 * u') n) /\
    ((e <= 1)%nat -> "e"%char ∉ to_string (100 * u') n).
Proof.
  intros Hu' Hn He Hd. unfold to_string. destruct (double_of_int n) as (c & Hc & -> & ->); [lia|].
  destruct (double_of_ok n (100 * u') c) as (H1 & H2 & H3); [lia..|nia|].
  set (y := double_of _ _) in *.
  assert (100 * u' < den y) as Ht by nia.
  destruct (three_ok n (100 * u') u' (num y) (den y) eq_refl Hu' ltac:(lia) Ht H2 e He Hd) as (m & x & E & Hm & Hnear & Hx & Hx').
  change (shown (num y) (den y)) with (let '(m, e) := three_digits (num y) (den y) in layout m e). rewrite E.
  assert (layout_ok m x = true) as L by (apply layouts; [done|lia]).
  unfold layout_ok in L. destruct (read_number (layout m x)) as [[[v k] z]|] eqn:R; [|done].
  apply andb_prop in L as [L Le]. apply andb_prop in L as [L Ls]. apply andb_prop in L as [L Lz]. apply andb_prop in L as [L Lk].
  apply Z.eqb_eq in L. apply Z.leb_le in Lz, Lk. apply eqb_prop in Le.
  assert (bool_decide ("e"%char ∈ layout m x) = (2 <? x)%nat) as Le' by done.
  exists v, k, z. split; [done|]. split; [lia|]. split; [lia|]. split; [|split; [done|split; [|split; [|split]]]].
  - assert (0 < 10 ^ k) by lia. set (kk := 10 ^ k) in *. set (a := 10 ^ Z.of_nat e) in *. clearbody kk a.
    replace (200 * Z.abs (v * 10 ^ z * (100 * u') - n * kk)) with (2 * Z.abs (100 * (v * 10 ^ z * (100 * u') - n * kk))) by (rewrite Z.abs_mul; lia).
    replace (100 * (v * 10 ^ z * (100 * u') - n * kk)) with (kk * (m * 10 ^ Z.of_nat x * (100 * u') - n * 100))
      by (transitivity (v * 10 ^ z * 100 * (100 * u') - 100 * n * kk); [rewrite L|]; ring).
    rewrite Z.abs_mul, (Z.abs_eq kk) by lia. nia.
  - intros Hlt H2'. apply (bool_decide_eq_false _). rewrite Le'. apply Nat.ltb_ge. destruct Hx as [-> |[-> ->]]; [done|].
    exfalso. assert (S e = e); [|lia]. apply Hx'. left. lia.
  - intros Hlt H2'. apply (bool_decide_eq_true _). rewrite Le'. apply Nat.ltb_lt. destruct Hx as [Exe|[-> ->]]; [|lia].
    apply Hx' in Exe. lia.
  - intros H3'. apply (bool_decide_eq_true _). rewrite Le'. apply Nat.ltb_lt. lia.
  - intros H1'. apply (bool_decide_eq_false _). rewrite Le'. apply Nat.ltb_ge. lia.
Qed.

Lemma units_ok u t d : (u, t) ∈ [(10 ^ 3, ⌜"us"⌝); (10 ^ 6, ⌜"ms"⌝); (10 ^ 9, ⌜"s"⌝)] -> u <= d -> (d < 1000 * u \/ u = 10 ^ 9 /\ d < 2 ^ 52) ->
  stringify d = (to_string u d, t) /\ exists u', u = 100 * u' /\ 0 < u' /\ 100 * u' <= d < 2 ^ 52.
Proof.
  rewrite !elem_of_cons, elem_of_nil. intros Hu Hd Hl. unfold stringify. destruct_or! Hu; try done; injection Hu as -> ->;
    repeat (case (Z.leb_spec _ d); intros ?); try lia; (split; [done|]).
  - exists 10. lia.
  - exists 10000. lia.
  - exists 10000000. lia.
Qed.
Lemma nearest_ok u t d j : (u, t) ∈ [(10 ^ 3, ⌜"us"⌝); (10 ^ 6, ⌜"ms"⌝); (10 ^ 9, ⌜"s"⌝)] -> u <= d -> (d < 1000 * u \/ u = 10 ^ 9 /\ d < 2 ^ 52) ->
  0 <= j -> u * 10 ^ j <= d < u * 10 ^ (j + 1) ->
  snd (stringify d) = t /\ short (fst (stringify d)) = true /\
  exists v k x, read_number (fst (stringify d)) = Some (v, k, x) /\ 0 <= k /\ 0 <= x /\ 200 * Z.abs (v * 10 ^ x * u - d * 10 ^ k) <= u * 10 ^ j * 10 ^ k.
Proof.
  intros Hu Hd Hl Hj Hdec. assert (1000 <= u) as Hu3. { rewrite !elem_of_cons, elem_of_nil in Hu. destruct_or! Hu; try done; injection Hu as -> ->; lia. }
  destruct (units_ok u t d Hu Hd Hl) as (-> & u' & -> & Hu' & Hd'). cbn [fst snd]. split; [done|].
  assert (j <= 9) as Hj9.
  { destruct (Z.le_gt_cases j 9) as [|Hg]; [done|]. exfalso. assert (10 ^ 10 <= 10 ^ j) by (apply Z.pow_le_mono_r; lia).
    assert (100 * u' * 10 ^ 10 <= d) by nia. destruct Hl as [|[Hu9 Hl]]; [lia|]. rewrite Hu9 in *. lia. }
  destruct (time_ok u' d (Z.to_nat j) Hu' Hd') as (v & k & x & H1 & H2 & H3 & H4 & H5 & _); [lia|rewrite Nat2Z.inj_succ, Z2Nat.id by lia; done|].
  rewrite Z2Nat.id in H4 by lia. split; [done|]. by exists v, k, x.
Qed.
Lemma exponents_ok u t d : (u, t) ∈ [(10 ^ 3, ⌜"us"⌝); (10 ^ 6, ⌜"ms"⌝); (10 ^ 9, ⌜"s"⌝)] -> u <= d -> (d < 1000 * u \/ u = 10 ^ 9 /\ d < 2 ^ 52) ->
  (2 * d < 1999 * u -> "e"%char ∉ fst (stringify d)) /\ (1999 * u < 2 * d -> "e"%char ∈ fst (stringify d)).
Proof.
  intros Hu Hd Hl. assert (1000 <= u) as Hu3. { rewrite !elem_of_cons, elem_of_nil in Hu. destruct_or! Hu; try done; injection Hu as -> ->; lia. }
  destruct (units_ok u t d Hu Hd Hl) as (-> & u' & -> & Hu' & Hd'). cbn [fst snd].
  destruct (exponent_ok 20 d (100 * u')) as [E1 E2]; [lia| |].
  { transitivity (2 ^ 52); [lia|]. apply Z.lt_le_trans with (10 ^ 21); [lia|]. change (Z.of_nat 21) with 21. lia. }
  set (e := exponent 20 d (100 * u')) in *. clearbody e.
  assert (e <= 9)%nat as He.
  { destruct (Nat.le_gt_cases e 9%nat) as [|Hg]; [done|]. exfalso. assert (10 ^ 10 <= 10 ^ Z.of_nat e) by (apply Z.pow_le_mono_r; lia).
    assert (100 * u' * 10 ^ 10 <= d) by nia. destruct Hl as [|[Hu9 Hl]]; [lia|]. rewrite Hu9 in *. lia. }
  destruct (time_ok u' d e Hu' Hd' He (conj E1 E2)) as (v & k & x & _ & _ & _ & _ & _ & T1 & T2 & T3 & T4).
  split; intros H.
  - destruct (Nat.le_gt_cases e 1%nat) as [H1|H1]; [by apply T4|]. destruct (Nat.eq_dec e 2%nat) as [-> |Hne]; [apply T1; [|lia]; change (10 ^ Z.of_nat 2%nat) with 100; lia|].
    exfalso. assert (10 ^ 3 <= 10 ^ Z.of_nat e) by (apply Z.pow_le_mono_r; lia). nia.
  - destruct (Nat.le_gt_cases 3%nat e) as [H1|H1]; [by apply T3|]. destruct (Nat.eq_dec e 2%nat) as [-> |Hne]; [apply T2; [|lia]; change (10 ^ Z.of_nat 2%nat) with 100; lia|].
    exfalso. assert (10 ^ Z.of_nat (S e) <= 10 ^ 2) by (apply Z.pow_le_mono_r; lia). nia.
Qed.
