(** Comparison with earlier output (C79). *)
From Coq Require Import Ascii String Lia.
From stdpp Require Import list.
From Verif.Base Require Import Outcome ListLemmas.
From Verif.Text Require Import Model Spec Proofs ProofsIndent.
From Verif.Performance Require Import Model Spec.
Local Open Scope nat_scope.
Local Notation "⌜ s ⌝" := (list_ascii_of_string s%string).

(** ** The longest common beginning *)

Lemma common_app p t r : common (p ++ t) (p ++ r) = List.length p + common t r.
Proof. induction p as [|c p IH]; [done|]. cbn [app common List.length]. by rewrite decide_True, IH. Qed.

Lemma common_heads t r : head t <> head r -> common t r = 0.
Proof. destruct t as [|x t], r as [|y r]; cbn; try done. intros H. rewrite decide_False by congruence. done. Qed.

Lemma common_split t r : exists p t' r', t = p ++ t' /\ r = p ++ r' /\ common t r = List.length p /\ (t' = [] \/ r' = [] \/ head t' <> head r').
Proof.
  revert r. induction t as [|x t IH]; intros [|y r].
  - exists [], [], []. cbn. tauto.
  - exists [], [], (y :: r). cbn. tauto.
  - exists [], (x :: t), []. cbn. tauto.
  - destruct (decide (x = y)) as [->|Hn].
    + destruct (IH r) as (p & t' & r' & -> & -> & E & H). exists (y :: p), t', r'. cbn [app common List.length]. rewrite decide_True, E by done. done.
    + exists [], (x :: t), (y :: r). cbn [app common List.length]. rewrite decide_False by done. repeat split; [done..|]. right. right. cbn. congruence.
Qed.

Lemma occurs_by_spec s l pos : occurs_by s l pos = true <-> exists u v, l = u ++ s ++ v /\ List.length u <= pos.
Proof.
  revert pos. induction l as [|c l IH]; intros pos.
  - transitivity (starts_with s [] = true).
    + destruct pos; cbn [occurs_by]; by rewrite orb_false_r.
    + rewrite starts_with_spec. split.
      * intros [v E]. exists [], v. split; [done|cbn; lia].
      * intros (u & v & E & _). symmetry in E. apply app_eq_nil in E as [-> E]. by exists v.
  - destruct pos as [|pos]; cbn [occurs_by].
    + rewrite orb_false_r, starts_with_spec. split.
      * intros [v E]. exists [], v. split; [done|cbn; lia].
      * intros (u & v & E & Hl). destruct u; [|cbn in Hl; lia]. by exists v.
    + rewrite orb_true_iff, starts_with_spec, IH. split.
      * intros [[v E]|(u & v & -> & Hl)]; [exists [], v; split; [done|cbn; lia]|]. exists (c :: u), v. split; [done|cbn; lia].
      * intros ([|d u] & v & E & Hl); [left; by exists v|]. injection E as -> ->. right. exists u, v. split; [done|]. cbn in Hl. lia.
Qed.

Lemma occurs_by_within A B pos : List.length A <= pos -> occurs_by phrase (A ++ phrase ++ B) pos = true.
Proof. intros H. apply occurs_by_spec. by exists A, B. Qed.

(** ** Finding a character *)

Lemma find_char c u v : c ∉ u -> find_first [c] (u ++ c :: v) = Some (List.length u).
Proof.
  intros H. induction u as [|d u IH]; cbn [app find_first starts_with].
  - by rewrite decide_True.
  - apply not_elem_of_cons in H as [Hd H]. rewrite decide_False by done. by rewrite IH.
Qed.
Lemma find_char_none c u : c ∉ u -> find_first [c] u = None.
Proof.
  intros H. induction u as [|d u IH]; cbn [find_first starts_with]; [done|].
  apply not_elem_of_cons in H as [Hd H]. rewrite decide_False by done. by rewrite IH.
Qed.
Lemma char_or_none (c : ascii) u : c ∉ u \/ exists u1 u2, u = u1 ++ c :: u2 /\ c ∉ u1.
Proof.
  induction u as [|d u IH]; [left; apply not_elem_of_nil|]. destruct (decide (c = d)) as [->|Hn].
  - right. exists [], u. split; [done|apply not_elem_of_nil].
  - destruct IH as [H|(u1 & u2 & -> & H)]; [left; by apply not_elem_of_cons|]. right. exists (d :: u1), u2. split; [done|]. by apply not_elem_of_cons.
Qed.

Lemma acceptable_between w1 w2 m1 m2 z1 z2 o c : o ∉ w1 -> o ∉ w2 -> c ∉ w1 -> c ∉ w2 -> c ∉ m1 -> c ∉ m2 -> c <> o ->
  acceptable (w1 ++ o :: m1 ++ c :: z1) (w2 ++ o :: m2 ++ c :: z2) o c = bool_decide (m1 = m2).
Proof.
  intros H1 H2 H3 H4 H5 H6 Hn. unfold acceptable. rewrite !find_char by done.
  assert (E : forall w m z, c ∉ w -> c ∉ m -> find_first [c] (w ++ o :: m ++ c :: z) = Some (List.length (w ++ o :: m))).
  { intros w m z Hw Hm. rewrite <- (find_char c (w ++ o :: m) z); [by rewrite <- app_assoc|]. rewrite not_elem_of_app, not_elem_of_cons. done. }
  rewrite !E by done.
  rewrite !app_length. cbn [List.length].
  rewrite (proj2 (Nat.ltb_lt _ _)) by lia. rewrite (proj2 (Nat.ltb_lt (List.length w2) _)) by lia. cbn [andb].
  rewrite !drop_app.
  replace (List.length w1 + S (List.length m1) - List.length w1) with (List.length (o :: m1)) by (cbn; lia).
  replace (List.length w2 + S (List.length m2) - List.length w2) with (List.length (o :: m2)) by (cbn; lia).
  change (o :: m1 ++ c :: z1) with ((o :: m1) ++ c :: z1). change (o :: m2 ++ c :: z2) with ((o :: m2) ++ c :: z2).
  rewrite !take_app. apply bool_decide_ext. split; [by intros [=]|by intros ->].
Qed.

Lemma acceptable_none_l u v o c : c ∉ u -> acceptable u v o c = true.
Proof. intros H. unfold acceptable. rewrite (find_char_none c u) by done. by destruct (find_first [o] u). Qed.

(** ** One step *)

Lemma amm_step fuel p u v t' r' : nl ∉ u -> nl ∉ v -> head (u ++ [nl]) <> head (v ++ [nl]) ->
  occurs_by phrase (p ++ u ++ nl :: t') (List.length p) = true ->
  acceptable_mismatch (S fuel) (p ++ u ++ nl :: t') (p ++ v ++ nl :: r') =
  if negb (acceptable u v "-" "*") || negb (acceptable u v "(" ")") then Ok false
  else acceptable_mismatch fuel (nl :: t') (nl :: r').
Proof.
  intros Hu Hv Hh Ho. cbn [acceptable_mismatch].
  assert (Hc : common (p ++ u ++ nl :: t') (p ++ v ++ nl :: r') = List.length p).
  { rewrite common_app, common_heads; [lia|]. destruct u, v; done. }
  rewrite Hc, Ho. rewrite !app_length. cbn [List.length].
  rewrite (proj2 (Nat.ltb_lt _ _)) by lia. rewrite (proj2 (Nat.ltb_lt (List.length p) (_ + (List.length v + _)))) by lia. cbn [andb].
  rewrite !find_from_app, !find_char by done. cbn [fmap option_fmap option_map].
  rewrite !drop_app. replace (List.length p + List.length u - List.length p) with (List.length u) by lia.
  replace (List.length p + List.length v - List.length p) with (List.length v) by lia. rewrite !take_app.
  rewrite <- (app_length p u), <- (app_length p v), !app_assoc, !drop_app. done.
Qed.

Lemma amm_refl fuel t : 0 < fuel -> acceptable_mismatch fuel t t = Ok true.
Proof.
  intros H. destruct fuel as [|fuel]; [lia|]. cbn [acceptable_mismatch].
  replace (common t t) with (List.length t).
  - by rewrite Nat.ltb_irrefl, Nat.eqb_refl.
  - rewrite <- (app_nil_r t) at 2 3. rewrite common_app. cbn. lia.
Qed.

(** What a call may find: equal texts, texts which differ before any mention, an unfinished line or the
    end of one text, or lines which differ after a mention. *)
Lemma amm_cases fuel t r :
  t = r \/ acceptable_mismatch (S fuel) t r = Ok false \/
  exists p u v t' r', t = p ++ u ++ nl :: t' /\ r = p ++ v ++ nl :: r' /\ nl ∉ u /\ nl ∉ v /\ head (u ++ [nl]) <> head (v ++ [nl]) /\
    occurs_by phrase t (List.length p) = true.
Proof.
  destruct (common_split t r) as (p & t1 & r1 & -> & -> & E & H).
  destruct t1 as [|x t1], r1 as [|y r1].
  - by left.
  - right. left. cbn [acceptable_mismatch]. rewrite E, app_nil_r, Nat.ltb_irrefl. cbn [andb]. rewrite Nat.eqb_refl, app_length. cbn [List.length andb].
    f_equal. apply Nat.eqb_neq. lia.
  - right. left. cbn [acceptable_mismatch]. rewrite E, app_nil_r, Nat.ltb_irrefl, andb_false_r. cbn [andb]. rewrite app_length. cbn [List.length].
    rewrite (proj2 (Nat.eqb_neq _ _)) by lia. done.
  - assert (Hxy : x <> y) by (destruct H as [?|[?|H]]; [done|done|cbn in H; congruence]).
    destruct (occurs_by phrase (p ++ x :: t1) (List.length p)) eqn:Eo.
    + destruct (char_or_none nl (x :: t1)) as [Ht|(u & t' & Eu & Hu)], (char_or_none nl (y :: r1)) as [Hr|(v & r' & Ev & Hv)].
      4: { right. right. exists p, u, v, t', r'. rewrite Eu, Ev. rewrite Eu in Eo. split; [done|]. split; [done|]. split; [done|]. split; [done|].
           split; [|done]. intros Hh. apply Hxy. destruct u as [|a u], v as [|b v]; cbn in *; congruence. }
      all: right; left; cbn [acceptable_mismatch]; rewrite E, Eo, !find_from_app.
      1,2: rewrite (find_char_none nl (x :: t1)) by done.
      3: rewrite (find_char_none nl (y :: r1)), Eu by done; rewrite find_char by done; rewrite <- Eu.
      all: cbn [fmap option_fmap option_map]; rewrite !app_length; cbn [List.length];
        rewrite (proj2 (Nat.eqb_neq (List.length p) (List.length p + S (List.length t1)))) by lia; by destruct (_ && _).
    + right. left. cbn [acceptable_mismatch]. rewrite E, Eo, andb_false_r. rewrite !app_length. cbn [List.length].
      rewrite (proj2 (Nat.eqb_neq (List.length p) (List.length p + S (List.length t1)))) by lia. done.
Qed.

Lemma shorter p u t' : nl ∉ u -> occurs_by phrase (p ++ u ++ nl :: t') (List.length p) = true -> 0 < List.length (p ++ u).
Proof.
  intros Hu Ho. destruct (p ++ u) eqn:E; [|cbn; lia]. apply app_eq_nil in E as [-> ->]. exfalso. revert Ho. cbn [app List.length occurs_by].
  by cbn.
Qed.

Lemma amm_total fuel : forall t r, List.length t < fuel -> exists b, acceptable_mismatch fuel t r = Ok b.
Proof.
  induction fuel as [|fuel IH]; intros t r Hl; [lia|].
  destruct (amm_cases fuel t r) as [->|[E|(p & u & v & t' & r' & -> & -> & Hu & Hv & Hh & Ho)]].
  - exists true. apply amm_refl. lia.
  - by exists false.
  - rewrite amm_step by done. destruct (_ || _); [by exists false|]. apply IH.
    pose proof (shorter _ _ _ Hu Ho). rewrite !app_length in *. cbn [List.length] in *. lia.
Qed.

Lemma amm_fuel fuel : forall fuel' t r, List.length t < fuel -> List.length t < fuel' -> acceptable_mismatch fuel t r = acceptable_mismatch fuel' t r.
Proof.
  induction fuel as [|fuel IH]; intros [|fuel'] t r Hl Hl'; try lia.
  destruct (amm_cases fuel t r) as [->|[E|(p & u & v & t' & r' & -> & -> & Hu & Hv & Hh & Ho)]].
  - by rewrite !amm_refl by lia.
  - rewrite E. destruct (amm_cases fuel' t r) as [->|[E'|(p & u & v & t' & r' & -> & -> & Hu & Hv & Hh & Ho)]].
    + by rewrite amm_refl in E by lia.
    + done.
    + rewrite amm_step in * by done. destruct (_ || _); [done|]. rewrite <- E. apply IH;
      pose proof (shorter _ _ _ Hu Ho); rewrite !app_length in *; cbn [List.length] in *; lia.
  - rewrite !amm_step by done. destruct (_ || _); [done|]. apply IH;
      pose proof (shorter _ _ _ Hu Ho); rewrite !app_length in *; cbn [List.length] in *; lia.
Qed.

(** ** Soundness *)

Inductive aligned : text -> text -> Prop :=
  | aligned_eq t : aligned t t
  | aligned_step p u v t' r' : nl ∉ u -> nl ∉ v -> occurs_by phrase (p ++ u ++ nl :: t') (List.length p) = true ->
      aligned (nl :: t') (nl :: r') -> aligned (p ++ u ++ nl :: t') (p ++ v ++ nl :: r').

Lemma amm_aligned fuel : forall t r, acceptable_mismatch fuel t r = Ok true -> aligned t r.
Proof.
  induction fuel as [|fuel IH]; intros t r H; [done|].
  destruct (amm_cases fuel t r) as [->|[E|(p & u & v & t' & r' & -> & -> & Hu & Hv & Hh & Ho)]]; [constructor|congruence|].
  rewrite amm_step in H by done. destruct (_ || _); [done|]. by apply aligned_step; [..|apply IH].
Qed.

Lemma lines_ne l : lines l <> [].
Proof. destruct l as [|c l]; [done|]. cbn [lines]. case_decide; [done|]. by destruct (lines l). Qed.

Lemma lines_app_nl a b : lines (a ++ nl :: b) = lines a ++ lines b.
Proof.
  induction a as [|c a IH]; cbn [app lines].
  - by rewrite decide_True.
  - case_decide; [by rewrite IH|]. rewrite IH. destruct (lines a) eqn:E; [by apply lines_ne in E|]. done.
Qed.

Lemma lines_flat u : nl ∉ u -> lines u = [u].
Proof.
  induction u as [|c u IH]; intros H; [done|]. apply not_elem_of_cons in H as [Hc H]. cbn [lines]. rewrite decide_False by congruence. by rewrite IH.
Qed.

(** The lines of a text which goes on. *)
Lemma lines_prefix p : exists ps pl, forall u, nl ∉ u -> lines (p ++ u) = ps ++ [pl ++ u].
Proof.
  induction p as [|c p (ps & pl & H)].
  - exists [], []. intros u Hu. by apply lines_flat.
  - destruct (decide (c = nl)) as [->|Hn].
    + exists ([] :: ps), pl. intros u Hu. cbn [app lines]. rewrite decide_True by done. by rewrite H.
    + destruct ps as [|w ps].
      * exists [], (c :: pl). intros u Hu. cbn [app lines]. rewrite decide_False by done. by rewrite H.
      * exists ((c :: w) :: ps), pl. intros u Hu. cbn [app lines]. rewrite decide_False by done. by rewrite H.
Qed.

Lemma lines_general p : exists ps pl, forall y, exists yl ys, lines y = yl :: ys /\ lines (p ++ y) = ps ++ (pl ++ yl) :: ys.
Proof.
  induction p as [|c p (ps & pl & H)].
  - exists [], []. intros y. destruct (lines y) as [|yl ys] eqn:E; [by apply lines_ne in E|]. exists yl, ys. by cbn.
  - destruct (decide (c = nl)) as [->|Hn].
    + exists ([] :: ps), pl. intros y. destruct (H y) as (yl & ys & E1 & E2). exists yl, ys. split; [done|]. cbn [app lines]. rewrite decide_True by done. by rewrite E2.
    + destruct ps as [|w ps].
      * exists [], (c :: pl). intros y. destruct (H y) as (yl & ys & E1 & E2). exists yl, ys. split; [done|]. cbn [app lines]. rewrite decide_False by done. by rewrite E2.
      * exists ((c :: w) :: ps), pl. intros y. destruct (H y) as (yl & ys & E1 & E2). exists yl, ys. split; [done|]. cbn [app lines]. rewrite decide_False by done. by rewrite E2.
Qed.

Lemma phrase_no_nl : nl ∉ phrase.
Proof. apply (bool_decide_unpack _). by vm_compute. Qed.

(** A mention which begins before [p] is over is in one of the first lines. *)
Lemma mention_line p z : occurs_by phrase (p ++ z) (List.length p) = true ->
  forall ps pl, lines p = ps ++ [pl] -> exists j l, j <= List.length ps /\ lines (p ++ z) !! j = Some l /\ occurs phrase l.
Proof.
  intros Ho ps pl Ep. apply occurs_by_spec in Ho as (x & y & E & Hl).
  assert (Hx : exists x2, p = x ++ x2).
  { exists (drop (List.length x) p). rewrite <- (take_drop (List.length x) p) at 1. f_equal.
    apply (f_equal (take (List.length x))) in E. rewrite take_app in E. by rewrite take_app_le in E. }
  destruct Hx as [x2 ->]. rewrite E. clear E z.
  destruct (lines_general x) as (xs & xl & Hx).
  destruct (Hx x2) as (yl2 & ys2 & E21 & E22). rewrite Ep in E22.
  destruct (Hx (phrase ++ y)) as (yl & ys & E1 & E2). rewrite E2.
  exists (List.length xs), (xl ++ yl). split; [|split].
  - apply (f_equal (@List.length text)) in E22. rewrite !app_length in E22. cbn [List.length] in E22. lia.
  - by rewrite list_lookup_middle.
  - destruct (lines_prefix phrase) as (qs & ql & Hq).
    assert (exists y1 y2, y = y1 ++ y2 /\ nl ∉ y1 /\ (y2 = [] \/ exists y3, y2 = nl :: y3)) as (y1 & y2 & -> & Hy1 & Hy2).
    { destruct (char_or_none nl y) as [Hn|(u1 & u2 & -> & Hn)]; [exists y, []; rewrite app_nil_r; tauto|]. exists u1, (nl :: u2). eauto. }
    assert (yl = phrase ++ y1) as ->.
    { assert (Hflat : nl ∉ phrase ++ y1) by (rewrite not_elem_of_app; split; [apply phrase_no_nl|done]).
      destruct Hy2 as [->|[y3 ->]].
      - rewrite app_nil_r, lines_flat in E1 by done. congruence.
      - rewrite app_assoc, lines_app_nl, lines_flat in E1 by done. cbn [app] in E1. congruence. }
    exists (List.length xl), xl, y1. done.
Qed.

Lemma aligned_lines t r : aligned t r -> List.length (lines t) = List.length (lines r) /\
  forall i l l', lines t !! i = Some l -> lines r !! i = Some l' -> l <> l' ->
    exists j l0, j <= i /\ lines t !! j = Some l0 /\ occurs phrase l0.
Proof.
  induction 1 as [t|p u v t' r' Hu Hv Ho Ha [IH1 IH2]].
  - split; [done|]. intros i l l' H1 H2 Hn. congruence.
  - destruct (lines_prefix p) as (ps & pl & Hp).
    assert (Ep : lines p = ps ++ [pl]) by (specialize (Hp [] ltac:(apply not_elem_of_nil)); by rewrite !app_nil_r in Hp).
    destruct (mention_line p (u ++ nl :: t') Ho ps pl Ep) as (j & l0 & Hj & El & Hocc).
    assert (Et : lines (p ++ u ++ nl :: t') = ps ++ [pl ++ u] ++ lines t') by (by rewrite app_assoc, lines_app_nl, Hp, <- app_assoc).
    assert (Er : lines (p ++ v ++ nl :: r') = ps ++ [pl ++ v] ++ lines r') by (by rewrite app_assoc, lines_app_nl, Hp, <- app_assoc).
    change (nl :: t') with ([] ++ nl :: t') in IH1. change (nl :: r') with ([] ++ nl :: r') in IH1. rewrite !lines_app_nl in IH1. cbn in IH1.
    split; [rewrite Et, Er, !app_length; cbn; lia|].
    intros i l l' H1 H2 Hn. destruct (decide (i < List.length ps)) as [Hi|Hi].
    + exfalso. rewrite Et, lookup_app_l in H1 by done. rewrite Er, lookup_app_l in H2 by done. congruence.
    + exists j, l0. split; [lia|]. done.
Qed.

(** ** Completeness *)

Lemma plain_not x c : plain x -> bool_decide (c ∈ nl :: ⌜ "-*()s;" ⌝) = true -> c ∉ x.
Proof.
  intros [HF Hn] Hc Hx. apply bool_decide_eq_true in Hc. apply elem_of_cons in Hc as [->|Hc]; [done|].
  rewrite Forall_forall in HF. by apply (HF c Hx).
Qed.
Lemma plain_app x y : plain (x ++ y) <-> plain x /\ plain y.
Proof. unfold plain. rewrite Forall_app, not_elem_of_app. tauto. Qed.

Ltac nin := repeat first [apply not_elem_of_app; split | apply not_elem_of_cons; split];
  first [ done | (apply plain_not; [done|by vm_compute]) | (apply (bool_decide_unpack _); by vm_compute) | idtac ].

Lemma split_mismatch (x x' : text) c : x <> x' -> c ∉ x -> c ∉ x' ->
  exists p x1 x1', x = p ++ x1 /\ x' = p ++ x1' /\ head (x1 ++ [c]) <> head (x1' ++ [c]).
Proof.
  intros Hn Hc Hc'. destruct (common_split x x') as (p & x1 & x1' & -> & -> & _ & H). exists p, x1, x1'. split; [done|]. split; [done|].
  rewrite not_elem_of_app in Hc, Hc'. destruct Hc as [_ Hc], Hc' as [_ Hc'].
  destruct x1 as [|a x1], x1' as [|b x1']; cbn in *.
  - by destruct Hn.
  - apply not_elem_of_cons in Hc' as [? _]. congruence.
  - apply not_elem_of_cons in Hc as [? _]. congruence.
  - destruct H as [?|[?|?]]; [done|done|congruence].
Qed.

Lemma head_more (x1 x1' : text) c z z' : head (x1 ++ [c]) <> head (x1' ++ [c]) -> head ((x1 ++ c :: z) ++ [nl]) <> head ((x1' ++ c :: z') ++ [nl]).
Proof. by destruct x1, x1'. Qed.

(** What follows the first measurement. *)
Definition after_x (k y : text) (b : option (text * text * text)) : text :=
  ⌜ " +- " ⌝ ++ k ++ ⌜ " * " ⌝ ++ y ++ ⌜ "s" ⌝ ++
  match b with None => [] | Some (q, mn, mx) => ⌜ " [" ⌝ ++ q ++ ⌜ "; (" ⌝ ++ mn ++ ⌜ ", " ⌝ ++ mx ++ ⌜ ")]" ⌝ end.
Definition bounds_text (b : option (text * text * text)) : text :=
  match b with None => [] | Some (q, mn, mx) => ⌜ " [" ⌝ ++ q ++ ⌜ "; (" ⌝ ++ mn ++ ⌜ ", " ⌝ ++ mx ++ ⌜ ")]" ⌝ end.

Definition plain_bounds (b : option (text * text * text)) : Prop :=
  match b with None => True | Some (q, mn, mx) => plain q /\ plain mn /\ plain mx end.

Lemma measured_line_eq before x k y b : measured_line before x k y b = (before ++ ⌜ "Task duration: " ⌝) ++ x ++ "s"%char :: after_x k y b.
Proof. unfold measured_line, after_x. rewrite <- !app_assoc. done. Qed.

(** Does [b] predict the same as [b']? *)
Definition same_bounds (b b' : option (text * text * text)) : bool :=
  match b, b' with
  | Some (_, mn, mx), Some (_, mn', mx') => bool_decide (mn ++ ⌜ ", " ⌝ ++ mx = mn' ++ ⌜ ", " ⌝ ++ mx')
  | _, _ => true
  end.

Lemma acceptable_sds w w' k k' z z' : plain w -> plain w' -> plain k -> plain k' ->
  acceptable (w ++ ⌜ "s +- " ⌝ ++ k ++ ⌜ " * " ⌝ ++ z) (w' ++ ⌜ "s +- " ⌝ ++ k' ++ ⌜ " * " ⌝ ++ z') "-" "*" = bool_decide (k = k').
Proof.
  intros Hw Hw' Hk Hk'.
  replace (w ++ ⌜ "s +- " ⌝ ++ k ++ ⌜ " * " ⌝ ++ z) with ((w ++ ⌜ "s +" ⌝) ++ "-"%char :: (⌜ " " ⌝ ++ k ++ ⌜ " " ⌝) ++ "*"%char :: " "%char :: z)
    by (rewrite <- !app_assoc; done).
  replace (w' ++ ⌜ "s +- " ⌝ ++ k' ++ ⌜ " * " ⌝ ++ z') with ((w' ++ ⌜ "s +" ⌝) ++ "-"%char :: (⌜ " " ⌝ ++ k' ++ ⌜ " " ⌝) ++ "*"%char :: " "%char :: z')
    by (rewrite <- !app_assoc; done).
  rewrite acceptable_between; [|nin..|done]. apply bool_decide_ext. split; [|by intros ->]. intros E.
  apply app_inj_1 in E as [_ E]; [|done]. by apply app_inj_2 in E as [? _].
Qed.

Lemma acceptable_bounds w w' b b' : "("%char ∉ w -> "("%char ∉ w' -> ")"%char ∉ w -> ")"%char ∉ w' -> plain_bounds b -> plain_bounds b' ->
  acceptable (w ++ bounds_text b) (w' ++ bounds_text b') "(" ")" = same_bounds b b'.
Proof.
  intros H1 H2 H3 H4 Hb Hb'. destruct b as [[[q mn] mx]|].
  - destruct Hb as (Hq & Hmn & Hmx). destruct b' as [[[q' mn'] mx']|].
    + destruct Hb' as (Hq' & Hmn' & Hmx'). cbn [bounds_text same_bounds].
      replace (w ++ ⌜ " [" ⌝ ++ q ++ ⌜ "; (" ⌝ ++ mn ++ ⌜ ", " ⌝ ++ mx ++ ⌜ ")]" ⌝)
        with ((w ++ ⌜ " [" ⌝ ++ q ++ ⌜ "; " ⌝) ++ "("%char :: (mn ++ ⌜ ", " ⌝ ++ mx) ++ ")"%char :: ⌜ "]" ⌝) by (rewrite <- !app_assoc; done).
      replace (w' ++ ⌜ " [" ⌝ ++ q' ++ ⌜ "; (" ⌝ ++ mn' ++ ⌜ ", " ⌝ ++ mx' ++ ⌜ ")]" ⌝)
        with ((w' ++ ⌜ " [" ⌝ ++ q' ++ ⌜ "; " ⌝) ++ "("%char :: (mn' ++ ⌜ ", " ⌝ ++ mx') ++ ")"%char :: ⌜ "]" ⌝) by (rewrite <- !app_assoc; done).
      apply acceptable_between; [nin..|done].
    + cbn [bounds_text same_bounds]. rewrite app_nil_r. unfold acceptable. rewrite (find_char_none "(" w') by done.
      repeat case_match; done.
  - cbn [bounds_text same_bounds]. rewrite app_nil_r. by apply acceptable_none_l.
Qed.

(** The first measurements differ. *)
Lemma x_differs fuel p before x x' k k' y y' b b' t' r' : plain x -> plain x' -> plain k -> plain k' -> plain y -> plain y' ->
  plain_bounds b -> plain_bounds b' -> x <> x' ->
  acceptable_mismatch (S fuel) (p ++ measured_line before x k y b ++ nl :: t') (p ++ measured_line before x' k' y' b' ++ nl :: r') =
  if bool_decide (k = k') && same_bounds b b' then acceptable_mismatch fuel (nl :: t') (nl :: r') else Ok false.
Proof.
  intros Hx Hx' Hk Hk' Hy Hy' Hb Hb' Hne. rewrite !measured_line_eq.
  destruct (split_mismatch x x' "s" Hne ltac:(nin) ltac:(nin)) as (c & x1 & x1' & -> & -> & Hh).
  apply plain_app in Hx as [_ Hx1]. apply plain_app in Hx' as [_ Hx1'].
  set (P := p ++ (before ++ ⌜ "Task duration: " ⌝) ++ c).
  set (u := x1 ++ "s"%char :: after_x k y b). set (v := x1' ++ "s"%char :: after_x k' y' b').
  replace (p ++ ((before ++ ⌜ "Task duration: " ⌝) ++ (c ++ x1) ++ "s"%char :: after_x k y b) ++ nl :: t') with (P ++ u ++ nl :: t')
    by (subst P u; rewrite <- !app_assoc; done).
  replace (p ++ ((before ++ ⌜ "Task duration: " ⌝) ++ (c ++ x1') ++ "s"%char :: after_x k' y' b') ++ nl :: r') with (P ++ v ++ nl :: r')
    by (subst P v; rewrite <- !app_assoc; done).
  assert (Hnb : forall b0, plain_bounds b0 -> nl ∉ bounds_text b0).
  { intros [[[q mn] mx]|] H0; [destruct H0 as (? & ? & ?); cbn [bounds_text]; nin|apply not_elem_of_nil]. }
  assert (Hau : forall w k0 y0 b0, plain w -> plain k0 -> plain y0 -> plain_bounds b0 -> nl ∉ w ++ "s"%char :: after_x k0 y0 b0).
  { intros w k0 y0 b0 Hw Hk0 Hy0 Hb0. unfold after_x. fold (bounds_text b0). specialize (Hnb b0 Hb0). nin. }
  rewrite amm_step; [| by apply Hau | by apply Hau | by apply head_more |].
  - assert (E1 : acceptable u v "-" "*" = bool_decide (k = k')).
    { exact (acceptable_sds x1 x1' k k' (y ++ ⌜ "s" ⌝ ++ bounds_text b) (y' ++ ⌜ "s" ⌝ ++ bounds_text b') Hx1 Hx1' Hk Hk'). }
    assert (E2 : acceptable u v "(" ")" = same_bounds b b').
    { rewrite <- (acceptable_bounds (x1 ++ ⌜ "s +- " ⌝ ++ k ++ ⌜ " * " ⌝ ++ y ++ ⌜ "s" ⌝) (x1' ++ ⌜ "s +- " ⌝ ++ k' ++ ⌜ " * " ⌝ ++ y' ++ ⌜ "s" ⌝) b b'); [|nin..|done|done].
      f_equal; rewrite <- !app_assoc; done. }
    rewrite E1, E2. by destruct (bool_decide (k = k')), (same_bounds b b').
  - apply occurs_by_spec. exists (p ++ before), (⌜ " " ⌝ ++ c ++ u ++ nl :: t'). split; [subst P; rewrite <- !app_assoc; done|].
    subst P. rewrite !app_length. lia.
Qed.

(** The first measurements agree and the second ones differ. *)
Lemma y_differs fuel p before x k y y' b b' t' r' : plain y -> plain y' ->
  plain_bounds b -> plain_bounds b' -> y <> y' ->
  acceptable_mismatch (S fuel) (p ++ measured_line before x k y b ++ nl :: t') (p ++ measured_line before x k y' b' ++ nl :: r') =
  if same_bounds b b' then acceptable_mismatch fuel (nl :: t') (nl :: r') else Ok false.
Proof.
  intros Hy Hy' Hb Hb' Hne.
  destruct (split_mismatch y y' "s" Hne ltac:(nin) ltac:(nin)) as (c & y1 & y1' & -> & -> & Hh).
  apply plain_app in Hy as [_ Hy1]. apply plain_app in Hy' as [_ Hy1'].
  set (P := p ++ before ++ ⌜ "Task duration: " ⌝ ++ x ++ ⌜ "s +- " ⌝ ++ k ++ ⌜ " * " ⌝ ++ c).
  set (u := y1 ++ "s"%char :: bounds_text b). set (v := y1' ++ "s"%char :: bounds_text b').
  replace (p ++ measured_line before x k (c ++ y1) b ++ nl :: t') with (P ++ u ++ nl :: t')
    by (subst P u; unfold measured_line; fold (bounds_text b); rewrite <- !app_assoc; done).
  replace (p ++ measured_line before x k (c ++ y1') b' ++ nl :: r') with (P ++ v ++ nl :: r')
    by (subst P v; unfold measured_line; fold (bounds_text b'); rewrite <- !app_assoc; done).
  assert (Hnb : forall b0, plain_bounds b0 -> nl ∉ bounds_text b0 /\ "*"%char ∉ bounds_text b0).
  { intros [[[q mn] mx]|] H0; [destruct H0 as (? & ? & ?); cbn [bounds_text]; split; nin|split; apply not_elem_of_nil]. }
  destruct (Hnb b Hb) as [Hb1 Hb2]. destruct (Hnb b' Hb') as [Hb1' Hb2'].
  rewrite amm_step; [| subst u; nin | subst v; nin | by apply head_more |].
  - rewrite (acceptable_none_l u v "-" "*") by (subst u; nin).
    assert (E2 : acceptable u v "(" ")" = same_bounds b b').
    { rewrite <- (acceptable_bounds (y1 ++ ⌜ "s" ⌝) (y1' ++ ⌜ "s" ⌝) b b'); [|nin..|done|done].
      f_equal; rewrite <- !app_assoc; done. }
    rewrite E2. by destruct (same_bounds b b').
  - apply occurs_by_spec. exists (p ++ before), (⌜ " " ⌝ ++ x ++ ⌜ "s +- " ⌝ ++ k ++ ⌜ " * " ⌝ ++ c ++ u ++ nl :: t'). split; [subst P; rewrite <- !app_assoc; done|].
    subst P. rewrite !app_length. lia.
Qed.

(** Only the ratios differ. *)
Lemma q_differs fuel p before x k y q q' mn mx mn' mx' t' r' : plain q -> plain q' -> plain mn -> plain mx -> plain mn' -> plain mx' -> q <> q' ->
  acceptable_mismatch (S fuel) (p ++ measured_line before x k y (Some (q, mn, mx)) ++ nl :: t') (p ++ measured_line before x k y (Some (q', mn', mx')) ++ nl :: r') =
  if same_bounds (Some (q, mn, mx)) (Some (q', mn', mx')) then acceptable_mismatch fuel (nl :: t') (nl :: r') else Ok false.
Proof.
  intros Hq Hq' Hmn Hmx Hmn' Hmx' Hne.
  destruct (split_mismatch q q' ";" Hne ltac:(nin) ltac:(nin)) as (c & q1 & q1' & -> & -> & Hh).
  apply plain_app in Hq as [_ Hq1]. apply plain_app in Hq' as [_ Hq1'].
  set (P := p ++ before ++ ⌜ "Task duration: " ⌝ ++ x ++ ⌜ "s +- " ⌝ ++ k ++ ⌜ " * " ⌝ ++ y ++ ⌜ "s [" ⌝ ++ c).
  set (u := q1 ++ ";"%char :: ⌜ " (" ⌝ ++ mn ++ ⌜ ", " ⌝ ++ mx ++ ⌜ ")]" ⌝). set (v := q1' ++ ";"%char :: ⌜ " (" ⌝ ++ mn' ++ ⌜ ", " ⌝ ++ mx' ++ ⌜ ")]" ⌝).
  replace (p ++ measured_line before x k y (Some (c ++ q1, mn, mx)) ++ nl :: t') with (P ++ u ++ nl :: t')
    by (subst P u; unfold measured_line; rewrite <- !app_assoc; cbn [list_ascii_of_string app]; rewrite <- ?app_assoc; cbn [app]; rewrite <- ?app_assoc; cbn [app]; done).
  replace (p ++ measured_line before x k y (Some (c ++ q1', mn', mx')) ++ nl :: r') with (P ++ v ++ nl :: r')
    by (subst P v; unfold measured_line; rewrite <- !app_assoc; cbn [list_ascii_of_string app]; rewrite <- ?app_assoc; cbn [app]; rewrite <- ?app_assoc; cbn [app]; done).
  rewrite amm_step; [| subst u; nin | subst v; nin | by apply head_more |].
  - rewrite (acceptable_none_l u v "-" "*") by (subst u; nin).
    assert (E2 : acceptable u v "(" ")" = same_bounds (Some (c ++ q1, mn, mx)) (Some (c ++ q1', mn', mx'))).
    { cbn [same_bounds]. rewrite <- (acceptable_between (q1 ++ ⌜ "; " ⌝) (q1' ++ ⌜ "; " ⌝) (mn ++ ⌜ ", " ⌝ ++ mx) (mn' ++ ⌜ ", " ⌝ ++ mx') ⌜ "]" ⌝ ⌜ "]" ⌝ "(" ")"); [|nin..|done].
      f_equal; rewrite <- !app_assoc; done. }
    rewrite E2. by destruct (same_bounds _ _).
  - apply occurs_by_spec. exists (p ++ before), (⌜ " " ⌝ ++ x ++ ⌜ "s +- " ⌝ ++ k ++ ⌜ " * " ⌝ ++ y ++ ⌜ "s [" ⌝ ++ c ++ u ++ nl :: t'). split; [subst P; rewrite <- !app_assoc; done|].
    subst P. rewrite !app_length. lia.
Qed.

Lemma same_bounds_refl q q' mn mx : same_bounds (Some (q, mn, mx)) (Some (q', mn, mx)) = true.
Proof. cbn. by rewrite bool_decide_true. Qed.

Lemma same_step fuel p l l' t' r' : same_but_measured l l' -> l <> l' ->
  acceptable_mismatch (S fuel) (p ++ l ++ nl :: t') (p ++ l' ++ nl :: r') = acceptable_mismatch fuel (nl :: t') (nl :: r').
Proof.
  intros H Hn. destruct H as [l Hl|before x y x' y' k Hb Hx Hy Hx' Hy' Hk|before x y q x' y' q' k mn mx Hb Hx Hy Hq Hx' Hy' Hq' Hk Hmn Hmx]; [done| |].
  - destruct (decide (x = x')) as [->|Hne].
    + rewrite y_differs by (done || congruence). done.
    + rewrite x_differs by done. by rewrite bool_decide_true.
  - destruct (decide (x = x')) as [->|Hne].
    + destruct (decide (y = y')) as [->|Hne].
      * rewrite q_differs by (done || congruence). by rewrite same_bounds_refl.
      * rewrite y_differs by (done || congruence). by rewrite same_bounds_refl.
    + rewrite x_differs by done. by rewrite bool_decide_true, same_bounds_refl.
Qed.

Lemma ended_cons l ls : ended (l :: ls) = l ++ nl :: ended ls.
Proof. unfold ended. cbn [map concat]. by rewrite <- app_assoc. Qed.

Lemma accepts_same ls ls' : Forall2 same_but_measured ls ls' -> forall fuel p rest, List.length (p ++ ended ls ++ rest) < fuel ->
  acceptable_mismatch fuel (p ++ ended ls ++ rest) (p ++ ended ls' ++ rest) = Ok true.
Proof.
  induction 1 as [|l l' ls ls' Hl HF IH]; intros fuel p rest Hf.
  - apply amm_refl. lia.
  - rewrite !ended_cons in *. rewrite <- !app_assoc in *. cbn [app] in *.
    destruct (decide (l = l')) as [->|Hn].
    + specialize (IH fuel (p ++ l' ++ [nl]) rest). rewrite <- !app_assoc in IH. cbn [app] in IH. apply IH. done.
    + destruct fuel as [|fuel]; [lia|]. rewrite same_step by done. apply (IH fuel [nl] rest).
      assert (0 < List.length l).
      { destruct Hl; [done| |]; rewrite measured_line_eq, !app_length; cbn; lia. }
      rewrite !app_length in *. cbn [List.length] in *. rewrite !app_length in *. lia.
Qed.
