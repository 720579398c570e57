(** Lemmas for C08: monotonic sequences. *)
From stdpp Require Import list.
From Verif.Base Require Import Outcome Order ListLemmas.
From Verif.StaticDS Require Import Model Proofs.
From Verif.Mono Require Import Model Spec.

Section mono.
  Context {T : Type} (comp : T -> T -> bool).
  Notation monotonic := (monotonic comp).

  Lemma monotonic_nil : monotonic [].
  Proof. intros i x y Hx. done. Qed.

  Lemma monotonic_single x : monotonic [x].
  Proof. intros [|i] a b Ha Hb; done. Qed.

  Lemma monotonic_app l r :
    monotonic (l ++ r) <->
    monotonic l /\ monotonic r /\
    (forall x y, last l = Some x -> head r = Some y -> comp x y = false).
  Proof.
    split.
    - intros H. split; [|split].
      + intros i x y Hx Hy. apply (H i).
        * by apply lookup_app_l_Some.
        * by apply lookup_app_l_Some.
      + intros i x y Hx Hy. apply (H (length l + i)).
        * rewrite lookup_app_r by lia. by replace (length l + i - length l) with i by lia.
        * rewrite lookup_app_r by lia. by replace (S (length l + i) - length l) with (S i) by lia.
      + intros x y Hx Hy. rewrite last_lookup in Hx. destruct l as [|z l]; [done|].
        cbn [length Nat.pred] in Hx. apply (H (length l)).
        * apply lookup_app_l_Some. done.
        * rewrite lookup_app_r by (cbn; lia). cbn [length]. rewrite Nat.sub_diag.
          by destruct r; [|injection Hy as ->].
    - intros (Hl & Hr & Hlr) i x y Hx Hy.
      destruct (decide (S i < length l)) as [H1|H1].
      { rewrite lookup_app_l in Hx, Hy by lia. by apply (Hl i). }
      destruct (decide (S i = length l)) as [H2|H2].
      { apply Hlr.
        - rewrite lookup_app_l in Hx by lia. rewrite last_lookup, <- H2. done.
        - rewrite lookup_app_r, H2, Nat.sub_diag in Hy by lia. destruct r; done. }
      rewrite lookup_app_r in Hx, Hy by lia.
      replace (S i - length l) with (S (i - length l)) in Hy by lia. by apply (Hr (i - length l)).
  Qed.

  Lemma monotonic_cons x r :
    monotonic (x :: r) <-> monotonic r /\ (forall y, head r = Some y -> comp x y = false).
  Proof.
    rewrite (monotonic_app [x] r). split.
    - intros (_ & Hr & H). split; [done|]. intros y. by apply H.
    - intros [Hr H]. split; [apply monotonic_single|]. split; [done|]. intros z y [= <-]. apply H.
  Qed.

  Lemma monotonic_dec l : monotonic l \/ ~ monotonic l.
  Proof.
    induction l as [|x l [IH|IH]].
    - left. apply monotonic_nil.
    - destruct l as [|y l]; [left; apply monotonic_single|].
      destruct (comp x y) eqn:E.
      + right. rewrite monotonic_cons. intros [_ H]. rewrite H in E by done. done.
      + left. rewrite monotonic_cons. split; [done|]. intros z [= <-]. done.
    - right. rewrite monotonic_cons. by intros [? _].
  Qed.

  Lemma check_loop_spec s i k :
    0 < i -> i + k = length s ->
    ((forall j x y, i <= S j -> s !! j = Some x -> s !! S j = Some y -> comp x y = false) ->
       check_loop comp s i k = Ok tt) /\
    (~ (forall j x y, i <= S j -> s !! j = Some x -> s !! S j = Some y -> comp x y = false) ->
       check_loop comp s i k = Throw LogicError).
  Proof.
    revert i. induction k as [|k IH]; intros i Hi Hk; cbn [check_loop].
    { split; [done|]. intros H. exfalso. apply H. intros j x y Hj Hx Hy. apply lookup_lt_Some in Hy. lia. }
    destruct (rget_lt s (i - 1)) as (x & -> & Hx); [lia|].
    destruct (rget_lt s i) as (y & -> & Hy); [lia|]. cbn [rbind].
    destruct (IH (i + 1)) as [IH1 IH2]; [lia|lia|]. split; intros H.
    - rewrite (H (i - 1) x y); [|lia|done|by replace (S (i - 1)) with i by lia].
      apply IH1. intros j a b Hj. apply H. lia.
    - destruct (comp x y) eqn:E; [done|]. apply IH2. intros H'. apply H.
      intros j a b Hj Ha Hb. destruct (decide (S j = i)) as [<-|].
      + rewrite Nat.sub_succ, Nat.sub_0_r in Hx. congruence.
      + apply (H' j); [lia|done|done].
  Qed.

  Lemma check_spec s :
    (monotonic s -> check comp s = Ok tt) /\ (~ monotonic s -> check comp s = Throw LogicError).
  Proof.
    unfold check. case_decide as H1.
    - destruct (check_loop_spec s 1 (length s - 1)) as [H2 H3]; [lia|lia|]. split; intros HM.
      + apply H2. intros j x y _. apply HM.
      + apply H3. intros H. apply HM. intros j x y. apply H. lia.
    - split; [done|]. intros HM. exfalso. apply HM. intros i x y Hx Hy.
      apply lookup_lt_Some in Hy. lia.
  Qed.

  Lemma mono_make_spec l :
    (monotonic l -> mono_make comp l = Ok l) /\ (~ monotonic l -> mono_make comp l = Throw LogicError).
  Proof.
    unfold mono_make. destruct (check_spec l) as [H1 H2].
    split; intros HM; [rewrite H1|rewrite H2]; done.
  Qed.

  Lemma static_mono_make_spec d n l :
    length l <= n ->
    (monotonic (l ++ replicate (n - length l) d) ->
       static_mono_make comp (Some d) n l = Ok (l ++ replicate (n - length l) d)) /\
    (~ monotonic (l ++ replicate (n - length l) d) ->
       static_mono_make comp (Some d) n l = Throw LogicError).
  Proof.
    intros Hl. unfold static_mono_make. rewrite to_array_default, fmap_id_list by done. cbn [rbind].
    destruct (check_spec (l ++ replicate (n - length l) d)) as [H1 H2].
    split; intros HM; [rewrite H1|rewrite H2]; done.
  Qed.

  Lemma push_back_spec s v :
    monotonic s ->
    (monotonic (s ++ [v]) -> push_back comp s v = Ok (s ++ [v])) /\
    (~ monotonic (s ++ [v]) -> push_back comp s v = Throw LogicError).
  Proof.
    intros Hs. unfold push_back. destruct (last s) as [b|] eqn:Hb.
    - split; intros HM.
      + apply monotonic_app in HM as (_ & _ & HM). by rewrite (HM b v).
      + destruct (comp b v) eqn:E; [done|]. exfalso. apply HM. apply monotonic_app.
        split; [done|]. split; [apply monotonic_single|]. intros x y Hx [= <-]. congruence.
    - split; [done|]. intros HM. exfalso. apply HM. apply last_None in Hb as ->. apply monotonic_single.
  Qed.

  Lemma rget_mid {A} (l : list A) x r : rget (l ++ x :: r) (length l) = Ok x.
  Proof. apply rget_ok. by apply list_lookup_middle. Qed.

  Lemma rget_last {A} (l : list A) r :
    l <> [] -> exists x, last l = Some x /\ rget (l ++ r) (length l - 1) = Ok x.
  Proof.
    intros Hl. destruct (last l) as [x|] eqn:E; [|by apply last_None in E]. exists x. split; [done|].
    apply rget_ok. rewrite last_lookup in E. apply lookup_app_l_Some.
    by replace (length l - 1) with (Nat.pred (length l)) by lia.
  Qed.

  Lemma insert_spec l r v :
    monotonic (l ++ r) ->
    (monotonic (l ++ v :: r) -> insert comp (l ++ r) (length l) v = Ok (l ++ v :: r)) /\
    (~ monotonic (l ++ v :: r) -> insert comp (l ++ r) (length l) v = Throw LogicError).
  Proof.
    intros Hs. apply monotonic_app in Hs as (Hl & Hr & Hlr).
    unfold insert. rewrite app_length, decide_True by lia. rewrite take_app, drop_app.
    assert (monotonic (l ++ v :: r) <->
      (forall y, head r = Some y -> comp v y = false) /\ (forall x, last l = Some x -> comp x v = false))
      as HM.
    { rewrite monotonic_app, monotonic_cons. cbn [head]. split.
      - intros (_ & [_ H1] & H2). split; [done|]. intros x Hx. by apply H2.
      - intros [H1 H2]. split; [done|]. split; [done|]. intros x y Hx [= <-]. by apply H2. }
    rewrite HM. clear HM.
    assert (exists b1, (if decide (length l = length l + length r) then Ok false
                        else rbind (rget (l ++ r) (length l)) (fun x => Ok (comp v x))) = Ok b1 /\
            (b1 = false <-> forall y, head r = Some y -> comp v y = false)) as (b1 & -> & Hb1).
    { destruct r as [|y r]; cbn [length].
      - rewrite decide_True by lia. exists false. split; [done|]. split; [|done]. intros _ y. done.
      - rewrite decide_False by lia. rewrite rget_mid. cbn [rbind]. eexists. split; [done|]. cbn [head].
        split; [intros H z [= <-]; done|]. intros H. by apply H. }
    cbn [rbind].
    assert (exists b2, (if decide (length l = 0) then Ok false
                        else rbind (rget (l ++ r) (length l - 1)) (fun x => Ok (comp x v))) = Ok b2 /\
            (b2 = false <-> forall x, last l = Some x -> comp x v = false)) as (b2 & Eb2 & Hb2).
    { case_decide as H0.
      - apply nil_length_inv in H0 as ->. exists false. split; [done|]. split; [|done]. intros _ x. done.
      - destruct (rget_last l r) as (x & Hx & ->); [by intros ->|]. cbn [rbind]. eexists. split; [done|].
        rewrite Hx. split; [intros H z [= <-]; done|]. intros H. by apply H. }
    destruct b1; cbn [rbind].
    - split; [|done]. intros [H _]. apply Hb1 in H. done.
    - rewrite Eb2. cbn [rbind]. destruct b2.
      + split; [|done]. intros [_ H]. apply Hb2 in H. done.
      + split; [done|]. intros H. exfalso. apply H. split; [by apply Hb1|by apply Hb2].
  Qed.

  Hypothesis Hsw : strict_weak comp.

  (** Monotonicity spans more than adjacent pairs. *)
  Lemma monotonic_far l i j x y :
    monotonic l -> i < j -> l !! i = Some x -> l !! j = Some y -> comp x y = false.
  Proof.
    intros HM Hij Hx. revert y. induction Hij as [|j Hij IH]; intros y Hy.
    - by apply (HM i).
    - destruct (lookup_in_range l j) as [z Hz].
      { apply lookup_lt_Some in Hy. lia. }
      pose proof (sw_neg_trans _ Hsw) as Hnt. apply (Hnt y z x); [|by apply IH].
      by apply (HM j).
  Qed.

  Lemma monotonic_cut l m r : monotonic (l ++ m ++ r) -> monotonic (l ++ r).
  Proof.
    intros HM. rewrite monotonic_app.
    pose proof HM as HM'. apply monotonic_app in HM' as (Hl & Hmr & _). apply monotonic_app in Hmr as (_ & Hr & _).
    split; [done|]. split; [done|]. intros x y Hx Hy.
    rewrite last_lookup in Hx. destruct l as [|z l]; [done|]. destruct r as [|w r]; [done|].
    injection Hy as ->.
    apply (monotonic_far ((z :: l) ++ m ++ y :: r) (length l) (length (z :: l) + length m) x y); try done.
    - cbn. lia.
    - by apply lookup_app_l_Some.
    - rewrite lookup_app_r by lia. replace (length (z :: l) + length m - length (z :: l)) with (length m) by lia.
      by apply list_lookup_middle.
  Qed.

  Lemma mutate_loop_spec (op : T -> res T) (l m m' r : list T) :
    Forall2 (fun x y => op x = Ok y) m m' ->
    mutate_loop op (l ++ m ++ r) (length l) (length m) = Ok (l ++ m' ++ r).
  Proof.
    intros HF. revert l. induction HF as [|x y m m' Hxy HF IH]; intros l; cbn [length mutate_loop app]; [done|].
    rewrite rget_mid. cbn [rbind]. rewrite Hxy. cbn [rbind].
    assert (rset (l ++ x :: m ++ r) (length l) y = Ok ((l ++ [y]) ++ m ++ r)) as ->.
    { apply rset_ok. split; [rewrite app_length; cbn; lia|].
      rewrite insert_app_r_alt by lia. rewrite Nat.sub_diag. cbn. by rewrite <- app_assoc. }
    cbn [rbind]. specialize (IH (l ++ [y])). rewrite app_length in IH. cbn [length] in IH.
    rewrite IH. by rewrite <- app_assoc.
  Qed.

  Lemma mutate_check_spec s f k :
    f + k <= length s ->
    ((forall i x y, f <= i -> i < f + k -> s !! i = Some x -> s !! S i = Some y -> comp x y = false) ->
       mutate_check comp s f k = Ok tt) /\
    (~ (forall i x y, f <= i -> i < f + k -> s !! i = Some x -> s !! S i = Some y -> comp x y = false) ->
       mutate_check comp s f k = Throw LogicError).
  Proof.
    revert f. induction k as [|k IH]; intros f Hk; cbn [mutate_check].
    { split; [done|]. intros H. exfalso. apply H. intros i x y. lia. }
    case_decide as He.
    { split; [done|]. intros H. exfalso. apply H. intros i x y Hf Hi Hx Hy.
      apply lookup_lt_Some in Hy. lia. }
    destruct (rget_lt s f) as (x & -> & Hx); [lia|].
    destruct (rget_lt s (f + 1)) as (y & -> & Hy); [lia|]. cbn [rbind].
    rewrite Nat.add_1_r in Hy.
    destruct (IH (f + 1)) as [IH1 IH2]; [lia|]. split; intros H.
    - rewrite (H f x y) by (done || lia). apply IH1. intros i a b Hf Hi. apply H; lia.
    - destruct (comp x y) eqn:E; [done|]. apply IH2. intros H'. apply H.
      intros i a b Hf Hi Ha Hb. destruct (decide (i = f)) as [->|].
      + congruence.
      + apply (H' i); [lia|lia|done|done].
  Qed.

  Lemma mutate_spec (op : T -> res T) (l m m' r : list T) :
    monotonic (l ++ m ++ r) ->
    Forall2 (fun x y => op x = Ok y) m m' ->
    (monotonic (l ++ m' ++ r) ->
       mutate comp (l ++ m ++ r) (length l) (length l + length m) op = Ok (l ++ m' ++ r)) /\
    (~ monotonic (l ++ m' ++ r) ->
       mutate comp (l ++ m ++ r) (length l) (length l + length m) op = Throw LogicError).
  Proof.
    intros HM HF. pose proof (Forall2_length _ _ _ HF) as Hlen.
    unfold mutate. rewrite !app_length, decide_True by lia. case_decide as He.
    { assert (m = []) as -> by (apply nil_length_inv; lia).
      assert (m' = []) as -> by (apply nil_length_inv; cbn in Hlen; lia). done. }
    replace (length l + length m - length l) with (length m) by lia.
    rewrite (mutate_loop_spec op l m m' r HF). cbn [rbind].
    set (f := if decide (length l = 0) then length l else length l - 1).
    set (e := if decide (length l + length m = length (l ++ m' ++ r)) then length l + length m
              else length l + length m + 1).
    destruct (mutate_check_spec (l ++ m' ++ r) f (e - f)) as [H1 H2].
    { subst f e. rewrite !app_length. repeat case_decide; lia. }
    assert (monotonic (l ++ m' ++ r) <->
      (forall i x y, f <= i -> i < f + (e - f) -> (l ++ m' ++ r) !! i = Some x ->
         (l ++ m' ++ r) !! S i = Some y -> comp x y = false)) as Hiff.
    { split.
      - intros H i x y _ _. apply H.
      - intros H i x y Hx Hy.
        assert (forall j, j < length l \/ length l + length m <= j ->
          (l ++ m' ++ r) !! j = (l ++ m ++ r) !! j) as Hout.
        { intros j Hj. destruct (decide (j < length l)) as [Hjl|Hjl].
          - by rewrite !lookup_app_l.
          - rewrite !(lookup_app_r l) by lia. rewrite !lookup_app_r by lia. by rewrite Hlen. }
        destruct (decide (f <= i /\ i < f + (e - f))) as [Hin|Hin].
        + by apply (H i); try lia.
        + pose proof (lookup_lt_Some _ _ _ Hy) as Hb. rewrite !app_length in Hb.
          subst f e. rewrite !app_length in *.
          apply (HM i); rewrite <- Hout; try done; repeat case_decide; lia. }
    split; intros H.
    - by rewrite (H1 (proj1 Hiff H)).
    - rewrite H2; [done|]. intros H'. by apply H, Hiff.
  Qed.

  Lemma mono_call_spec s c s' :
    monotonic s -> edit s c s' ->
    (monotonic s' -> mono_call comp s c = Ok s') /\
    (~ monotonic s' -> mono_call comp s c = Throw LogicError).
  Proof.
    intros HM He. destruct He as [l v|l r v|l x r|l m r|l|l m m' r op HF]; cbn [mono_call].
    - by apply push_back_spec.
    - by apply insert_spec.
    - assert (erase (l ++ x :: r) (length l) = Ok (l ++ r)) as ->.
      { unfold erase. rewrite app_length, decide_True by (cbn; lia).
        rewrite take_app, <- drop_drop, drop_app. done. }
      split; [done|]. intros H. exfalso. apply H. by apply (monotonic_cut l [x] r).
    - assert (erase_range (l ++ m ++ r) (length l) (length l + length m) = Ok (l ++ r)) as ->.
      { unfold erase_range. rewrite !app_length, decide_True by lia.
        rewrite take_app. rewrite <- drop_drop, !drop_app. done. }
      split; [done|]. intros H. exfalso. apply H. by apply (monotonic_cut l m r).
    - split; [done|]. intros H. exfalso. apply H, monotonic_nil.
    - by apply mutate_spec.
  Qed.

  Lemma mutate_loop_inv (op : T -> res T) (s : list T) i k s' :
    mutate_loop op s i k = Ok s' -> i + k <= length s ->
    exists m', Forall2 (fun x y => op x = Ok y) (take k (drop i s)) m' /\ s' = take i s ++ m' ++ drop (i + k) s.
  Proof.
    revert s i. induction k as [|k IH]; intros s i H Hk; cbn [mutate_loop] in H.
    { injection H as <-. exists []. split; [cbn; constructor|]. rewrite Nat.add_0_r. cbn. by rewrite take_drop. }
    destruct (rget_lt s i) as (x & Ex & Hx); [lia|]. rewrite Ex in H. cbn [rbind] in H.
    destruct (op x) as [y| | |] eqn:Ey; try done. cbn [rbind] in H.
    destruct (rset s i y) as [t| | |] eqn:Et; try done. cbn [rbind] in H.
    apply rset_ok in Et as [_ ->].
    apply IH in H as (m' & HF & ->); [|rewrite insert_length; lia].
    exists (y :: m'). rewrite (drop_S s x i Hx). cbn [take]. split.
    - constructor; [done|]. rewrite Nat.add_1_r, drop_insert_gt in HF by lia. done.
    - rewrite Nat.add_1_r, (take_S_r _ _ y) by (rewrite list_lookup_insert; [done|lia]).
      rewrite take_insert by lia. rewrite drop_insert_gt by lia.
      rewrite <- app_assoc. cbn. do 3 f_equal. f_equal. lia.
  Qed.

  (** Whatever a call does is the edit it stands for. *)
  Lemma mono_call_edit s c s' : mono_call comp s c = Ok s' -> edit s c s'.
  Proof.
    destruct c as [v|pos v|pos|f l| |f l op]; cbn [mono_call]; intros H.
    - unfold push_back in H. destruct (last s); [destruct (comp _ _); [done|]|]; injection H as <-; constructor.
    - unfold insert in H. case_decide as Hp; [|done].
      match type of H with rbind ?m _ = _ => destruct m as [b1| | |]; cbn [rbind] in H; try done end.
      match type of H with rbind ?m _ = _ => destruct m as [b2| | |]; cbn [rbind] in H; try done end.
      destruct b2; [done|]. injection H as <-.
      assert (edit (take pos s ++ drop pos s) (MInsert (length (take pos s)) v) (take pos s ++ v :: drop pos s))
        as E by constructor.
      rewrite take_drop, take_length, Nat.min_l in E by lia. done.
    - unfold erase in H. case_decide as Hp; [|done]. injection H as <-.
      destruct (lookup_in_range s pos Hp) as [x Hx].
      assert (edit (take pos s ++ x :: drop (S pos) s) (MErase (length (take pos s))) (take pos s ++ drop (S pos) s))
        as E by constructor.
      rewrite take_drop_middle, take_length, Nat.min_l in E by (done || lia).
      by rewrite Nat.add_1_r.
    - unfold erase_range in H. case_decide as Hp; [|done]. injection H as <-.
      assert (edit (take f s ++ take (l - f) (drop f s) ++ drop l s)
                (MEraseRange (length (take f s)) (length (take f s) + length (take (l - f) (drop f s))))
                (take f s ++ drop l s)) as E by constructor.
      rewrite take_length, Nat.min_l in E by lia. rewrite take_length, drop_length, Nat.min_l in E by lia.
      replace (f + (l - f)) with l in E by lia.
      replace (drop l s) with (drop (l - f) (drop f s)) in E at 1
        by (rewrite drop_drop; f_equal; lia).
      rewrite take_drop, take_drop in E. done.
    - injection H as <-. constructor.
    - unfold mutate in H. case_decide as Hp; [|done]. case_decide as He.
      + injection H as <-. subst l.
        assert (edit (take f s ++ [] ++ drop f s)
                  (MMutate (length (take f s)) (length (take f s) + length (@nil T)) op)
                  (take f s ++ [] ++ drop f s)) as E by (constructor; constructor).
        cbn [app length] in E. rewrite take_drop, take_length, Nat.min_l, Nat.add_0_r in E by lia. done.
      + destruct (mutate_loop op s f (l - f)) as [t| | |] eqn:Et; try done. cbn [rbind] in H.
        apply mutate_loop_inv in Et as (m' & HF & ->); [|lia].
        destruct (mutate_check _ _ _ _); try done. cbn [rbind] in H. injection H as <-.
        replace (f + (l - f)) with l by lia.
        assert (edit (take f s ++ take (l - f) (drop f s) ++ drop l s)
                (MMutate (length (take f s)) (length (take f s) + length (take (l - f) (drop f s))) op)
                (take f s ++ m' ++ drop l s)) as E by (by constructor).
        rewrite take_length, Nat.min_l in E by lia. rewrite take_length, drop_length, Nat.min_l in E by lia.
        replace (f + (l - f)) with l in E by lia.
        replace (drop l s) with (drop (l - f) (drop f s)) in E at 1
          by (rewrite drop_drop; f_equal; lia).
        rewrite take_drop, take_drop in E. done.
  Qed.

  Lemma mono_call_monotonic s c s' : monotonic s -> mono_call comp s c = Ok s' -> monotonic s'.
  Proof.
    intros HM H. pose proof (mono_call_edit _ _ _ H) as He.
    destruct (mono_call_spec s c s' HM He) as [_ H2].
    destruct (monotonic_dec s') as [|Hn]; [done|]. rewrite (H2 Hn) in H. done.
  Qed.

  Lemma mono_run_monotonic s cs s' : monotonic s -> mono_run comp s cs = Ok s' -> monotonic s'.
  Proof.
    revert s. induction cs as [|c cs IH]; intros s HM H; cbn [mono_run] in H.
    { by injection H as <-. }
    destruct (mono_call comp s c) as [t| | |] eqn:E; try done.
    - apply (IH t); [by apply (mono_call_monotonic s c)|done].
    - by apply (IH s).
  Qed.
End mono.
