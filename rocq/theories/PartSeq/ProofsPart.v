(** Lemmas for C10: every call of partitioned_sequence simulates the list of lists. *)
From stdpp Require Import list.
From Verif.Base Require Import Outcome Order ListLemmas.
From Verif.Mono Require Import Model.
From Verif.PartSeq Require Import Model Spec ProofsBucket ProofsFlat.

Section part.
  Context {T : Type}.
  Implicit Types (ls A B : list (list T)) (l : list T).

  Notation total ls := (length (mjoin ls)).

  Lemma swap_rep s A X M Y C :
    flat_rep s (A ++ X :: M ++ Y :: C) ->
    exists s', p_swap_partitions s (length A) (length A + S (length M)) = Ok s' /\
               flat_rep s' (A ++ Y :: M ++ X :: C).
  Proof.
    intros Hr. pose proof (num_rep _ _ Hr) as Hn. rewrite app_length in Hn. cbn in Hn.
    rewrite app_length in Hn. cbn in Hn.
    unfold p_swap_partitions.
    rewrite (decide_True (P := length A < p_num s /\ length A + S (length M) < p_num s)) by lia.
    rewrite (decide_False (P := length A = length A + S (length M))) by lia.
    rewrite !(decide_False (P := length A + S (length M) < length A)) by lia.
    rewrite (begin_rep _ _ _ _ Hr), (end_rep _ _ _ _ Hr). cbn [rbind].
    assert (A ++ X :: M ++ Y :: C = (A ++ X :: M) ++ Y :: C) as E by (by rewrite <- app_assoc).
    assert (flat_rep s ((A ++ X :: M) ++ Y :: C)) as Hr2 by (by rewrite <- E).
    replace (length A + S (length M)) with (length (A ++ X :: M)) by (by rewrite app_length).
    rewrite (begin_rep _ _ _ _ Hr2), (end_rep _ _ _ _ Hr2). cbn [rbind fst snd].
    rewrite total_app, total_cons.
    replace (total A + length X - total A) with (length X) by lia.
    replace (total A + (length X + total M) + length Y - (total A + (length X + total M)))
      with (length Y) by lia.
    destruct (swap_data (mjoin A) X (mjoin M) Y (mjoin C)) as (d & Hd1 & Hd2).
    destruct Hr as [Hp Hd].
    assert (p_data s = mjoin A ++ X ++ mjoin M ++ Y ++ mjoin C) as -> by (by rewrite Hd, !join_mid).
    replace (total A + (length X + total M)) with (total A + length X + total M) by lia.
    rewrite Hd1. cbn [rbind].
    rewrite Hd2. cbn [rbind].
    assert (offs 0 (A ++ X :: M ++ Y :: C) =
            offs 0 A ++ offs (total A) (X :: M) ++ offs (total A + length X + total M) (Y :: C)) as Eo.
    { rewrite offs_app. f_equal. change (X :: M ++ Y :: C) with ((X :: M) ++ Y :: C).
      rewrite offs_app, total_cons. cbn [Nat.add]. by rewrite Nat.add_assoc. }
    assert (offs 0 (A ++ Y :: M ++ X :: C) =
            offs 0 A ++ offs (total A) (Y :: M) ++ offs (total A + length Y + total M) (X :: C)) as Eo'.
    { rewrite offs_app. f_equal. change (Y :: M ++ X :: C) with ((Y :: M) ++ X :: C).
      rewrite offs_app, total_cons. cbn [Nat.add]. by rewrite Nat.add_assoc. }
    assert (total A + length X + total M + length Y = total A + length Y + total M + length X) as Ee by lia.
    destruct (decide (length X = length Y)) as [HXY|HXY].
    - eexists. split; [done|]. split; cbn [p_parts p_data]; [|by rewrite !join_mid].
      rewrite Hp, Eo, Eo'. cbn [offs]. by rewrite HXY.
    - assert (mutate_unsafe (p_parts s) (length A) (length (A ++ X :: M))
                (fun x => Ok (x + length Y - length X)) = (offs 0 (A ++ Y :: M ++ X :: C), Ok tt)) as ->.
      { rewrite Hp, Eo.
        replace (length A) with (length (offs 0 A)) by (by rewrite offs_length).
        replace (length (A ++ X :: M)) with (length (offs 0 A) + length (offs (total A) (X :: M)))
          by (rewrite app_length, !offs_length; done).
        rewrite (mutate_unsafe_ok (fun x => x + length Y - length X)).
        f_equal. rewrite Eo'. f_equal. f_equal.
        2:{ cbn [offs]. by rewrite Ee. }
        cbn [offs]. cbn [fmap list_fmap]. f_equal; [lia|].
        change (list_fmap _ _ ?f ?z) with (fmap f z).
        rewrite (list_fmap_compose (fun x => x + length Y) (fun x => x - length X)).
        rewrite offs_shift. replace (total A + length X + length Y) with (total A + length Y + length X) by lia.
        apply offs_unshift. }
      cbn [rbind]. eexists. split; [done|]. split; cbn [p_parts p_data]; [done|by rewrite !join_mid].
  Qed.

  Lemma swap_comm s i j : p_swap_partitions s i j = p_swap_partitions (T := T) s j i.
  Proof.
    unfold p_swap_partitions. destruct (decide (i < p_num s /\ j < p_num s)) as [H|H].
    - rewrite (decide_True (P := j < p_num s /\ i < p_num s)) by lia.
      destruct (decide (i = j)) as [->|Hij]; [by rewrite decide_True|].
      rewrite (decide_False (P := j = i)) by lia.
      destruct (decide (j < i)) as [Hji|Hji].
      + by rewrite !(decide_False (P := i < j)) by lia.
      + by rewrite !(decide_True (P := i < j)) by lia.
    - by rewrite (decide_False (P := j < p_num s /\ i < p_num s)) by lia.
  Qed.

  Lemma lookup_mid A l B : (A ++ l :: B) !! length A = Some l.
  Proof. by apply list_lookup_middle. Qed.

  Lemma swap_rep_lt s ls i j x y :
    flat_rep s ls -> ls !! i = Some x -> ls !! j = Some y -> i < j ->
    exists s', p_swap_partitions s i j = Ok s' /\ flat_rep s' (<[i:=y]> (<[j:=x]> ls)).
  Proof.
    intros Hr Hi Hj Hij.
    apply split_lookup in Hi as (A & B & -> & <-).
    rewrite lookup_app_r in Hj by lia.
    destruct (j - length A) as [|k] eqn:Ek; [lia|]. cbn in Hj.
    apply split_lookup in Hj as (M & C & -> & <-).
    assert (j = length A + S (length M)) as -> by lia.
    destruct (swap_rep s A x M y C Hr) as (s' & -> & Hr'). exists s'. split; [done|].
    assert (<[length A + S (length M):=x]> (A ++ x :: M ++ y :: C) = A ++ x :: M ++ x :: C) as ->.
    { pose proof (insert_mid (A ++ x :: M) y x C) as H. rewrite app_length in H. cbn [length] in H.
      by rewrite <- !app_assoc in H. }
    by rewrite insert_mid.
  Qed.

  Lemma swap_rep_any s ls i j x y :
    flat_rep s ls -> ls !! i = Some x -> ls !! j = Some y ->
    exists s', p_swap_partitions s i j = Ok s' /\ flat_rep s' (<[i:=y]> (<[j:=x]> ls)).
  Proof.
    intros Hr Hi Hj. destruct (Nat.lt_trichotomy i j) as [H|[H|H]].
    - by apply swap_rep_lt.
    - subst j. assert (x = y) as -> by congruence. exists s. split.
      + unfold p_swap_partitions. case_decide; [|done]. by rewrite decide_True.
      + rewrite list_insert_insert. by rewrite list_insert_id.
    - rewrite swap_comm. rewrite list_insert_commute by lia. by apply swap_rep_lt.
  Qed.

  Lemma push_rep s A l B v :
    flat_rep s (A ++ l :: B) ->
    exists s', p_push_back s (length A) v = Ok s' /\ flat_rep s' (A ++ (l ++ [v]) :: B).
  Proof.
    intros Hr. pose proof (num_rep _ _ Hr) as Hn. rewrite app_length in Hn. cbn in Hn.
    unfold p_push_back, p_check_range. rewrite (decide_False (P := p_num s <= length A)) by lia. cbn [rbind].
    rewrite (increment_rep _ _ _ _ Hr (l ++ [v])) by (by rewrite app_length).
    assert ((if decide (length A = p_num s - 1) then Ok (p_data s ++ [v])
             else rbind (rget (p_parts s) (length A)) (fun b => vec_insert (p_data s) b v)) =
            Ok (mjoin (A ++ (l ++ [v]) :: B))) as ->.
    { destruct Hr as [Hp Hd]. rewrite Hd, !join_mid. case_decide as H.
      - assert (length B = 0) as H0 by lia. apply nil_length_inv in H0 as ->. cbn.
        by rewrite !app_nil_r, <- app_assoc.
      - rewrite Hp, (rget_some _ _ _ (offs_at A l B)). cbn [rbind].
        rewrite vec_insert_ok by (rewrite !app_length; lia).
        rewrite app_assoc. rewrite take_app_alt, drop_app_alt by (by rewrite app_length).
        by rewrite <- !app_assoc. }
    cbn [rbind]. eexists. split; [done|]. by split.
  Qed.

  Lemma push_out s ls p v : flat_rep s ls -> ls !! p = None -> p_push_back s p v = Throw OutOfRange.
  Proof.
    intros Hr Hp. apply lookup_ge_None in Hp. unfold p_push_back, p_check_range.
    rewrite (num_rep _ _ Hr). by rewrite decide_True.
  Qed.

  Lemma iter_rep s A l B n :
    flat_rep s (A ++ l :: B) ->
    p_iter s (total A + n, Some (length A)) = Ok (s, PIter (length A) n).
  Proof.
    intros Hr. unfold p_iter. cbn [snd fst]. rewrite (begin_rep _ _ _ _ Hr). cbn [rbind fst].
    do 3 f_equal. lia.
  Qed.

  Lemma insert_rep s A l B pos v :
    flat_rep s (A ++ l :: B) ->
    exists s', p_insert s (length A) pos v =
                 Ok (s', PIter (length A) (Nat.min pos (length l))) /\
               flat_rep s' (A ++ insert_at l (Nat.min pos (length l)) v :: B).
  Proof.
    intros Hr. unfold p_insert. rewrite (begin_rep _ _ _ _ Hr), (end_rep _ _ _ _ Hr). cbn [rbind].
    set (k := Nat.min pos (length l)).
    assert (p_next (total A, Some (length A)) (total A + length l, Some (length A)) pos =
            (total A + k, Some (length A))) as ->.
    { unfold p_next. cbn. case_decide; f_equal; lia. }
    pose proof (num_rep _ _ Hr) as Hn. rewrite app_length in Hn. cbn in Hn.
    unfold p_insert_iter, p_check_range. cbn [fst snd].
    rewrite (decide_False (P := p_num s <= length A)) by lia. cbn [rbind].
    assert (k <= length l) as Hk by lia.
    rewrite (increment_rep _ _ _ _ Hr (insert_at l k v)).
    2:{ unfold insert_at. rewrite app_length, take_length. cbn. rewrite drop_length. lia. }
    assert (vec_insert (p_data s) (total A + k) v = Ok (mjoin (A ++ insert_at l k v :: B))) as ->.
    { destruct Hr as [_ Hd]. rewrite Hd, !join_mid.
      rewrite vec_insert_ok by (rewrite !app_length; lia).
      rewrite take_app_ge, drop_app_ge by lia. replace (total A + k - total A) with k by lia.
      rewrite take_app_le, drop_app_le by lia. unfold insert_at. f_equal. rewrite <- !app_assoc. done. }
    cbn [rbind].
    assert (flat_rep (PSeq (offs 0 (A ++ insert_at l k v :: B)) (mjoin (A ++ insert_at l k v :: B)))
              (A ++ insert_at l k v :: B)) as Hr' by done.
    rewrite (iter_rep _ _ _ _ _ Hr'). eexists. split; [done|]. done.
  Qed.

  Lemma remove_data A l B k m :
    k <= m -> m <= length l ->
    vec_erase (mjoin (A ++ l :: B)) (total A + k) (total A + m) = Ok (mjoin (A ++ remove l k m :: B)).
  Proof.
    intros Hk Hm. rewrite !join_mid.
    rewrite vec_erase_ok by (rewrite ?app_length; lia).
    rewrite take_app_ge, drop_app_ge by lia.
    replace (total A + k - total A) with k by lia. replace (total A + m - total A) with m by lia.
    rewrite take_app_le, drop_app_le by lia. unfold remove. f_equal. rewrite <- !app_assoc. done.
  Qed.

  Lemma remove_length l k m : k <= m -> m <= length l -> length (remove l k m) + (m - k) = length l.
  Proof. intros Hk Hm. unfold remove. rewrite app_length, take_length, drop_length. lia. Qed.

  Lemma erase_rep s A l B k :
    flat_rep s (A ++ l :: B) -> k <= length l ->
    exists s', p_erase_iter s (total A + k, Some (length A)) = Ok (s', PIter (length A) k) /\
               flat_rep s' (A ++ remove l k (S k) :: B).
  Proof.
    intros Hr Hk. pose proof (num_rep _ _ Hr) as Hn. rewrite app_length in Hn. cbn in Hn.
    unfold p_erase_iter. cbn [fst snd].
    rewrite (decide_False (P := p_num s <= length A)) by lia.
    rewrite (end_rep _ _ _ _ Hr). cbn [rbind fst].
    case_decide as H.
    - assert (k = length l) as -> by lia. rewrite (iter_rep _ _ _ _ _ Hr). exists s. split; [done|].
      unfold remove. rewrite remove_end by lia. done.
    - rewrite (decrement_rep _ _ _ _ 1 Hr (remove l k (S k))).
      2:{ pose proof (remove_length l k (S k)). lia. }
      replace (p_data s) with (mjoin (A ++ l :: B)) by (by destruct Hr as [_ ->]).
      replace (total A + k + 1) with (total A + S k) by lia.
      rewrite remove_data by lia. cbn [rbind].
      assert (flat_rep (PSeq (offs 0 (A ++ remove l k (S k) :: B)) (mjoin (A ++ remove l k (S k) :: B)))
                (A ++ remove l k (S k) :: B)) as Hr' by done.
      rewrite (iter_rep _ _ _ _ _ Hr'). eexists. split; [done|]. done.
  Qed.

  Lemma iterator_rep s A l B k :
    flat_rep s (A ++ l :: B) ->
    p_iterator s (length A) k =
      if decide (k <= length l) then Ok (total A + k, Some (length A)) else UB.
  Proof.
    intros Hr. pose proof (num_rep _ _ Hr) as Hn. rewrite app_length in Hn. cbn in Hn.
    unfold p_iterator. rewrite (decide_True (P := length A < p_num s)) by lia.
    rewrite (begin_rep _ _ _ _ Hr), (end_rep _ _ _ _ Hr). cbn [rbind fst].
    repeat case_decide; try done; lia.
  Qed.

  Lemma iterator_out s ls p k : flat_rep s ls -> ls !! p = None -> p_iterator s p k = UB.
  Proof.
    intros Hr Hp. apply lookup_ge_None in Hp. unfold p_iterator.
    rewrite (num_rep _ _ Hr). rewrite decide_False by lia. done.
  Qed.

  Lemma erase_range_rep s A l B k m :
    flat_rep s (A ++ l :: B) -> k <= length l -> m <= length l ->
    exists s', p_erase_range s (total A + k, Some (length A)) (total A + m, Some (length A)) =
                 Ok (s', PIter (length A) k) /\
               flat_rep s' (if decide (k < m) then A ++ remove l k m :: B else A ++ l :: B).
  Proof.
    intros Hr Hk Hm. pose proof (num_rep _ _ Hr) as Hn. rewrite app_length in Hn. cbn in Hn.
    unfold p_erase_range. cbn [fst snd].
    rewrite bool_decide_eq_false_2 by lia. cbn [andb]. rewrite (decide_True (P := Some _ = Some _)) by done.
    destruct (decide (k < m)) as [H|H].
    - rewrite (decide_True (P := total A + k < total A + m)) by lia.
      replace (total A + m - (total A + k)) with (m - k) by lia.
      rewrite (decrement_rep _ _ _ _ (m - k) Hr (remove l k m)) by (apply remove_length; lia).
      replace (p_data s) with (mjoin (A ++ l :: B)) by (by destruct Hr as [_ ->]).
      rewrite remove_data by lia. cbn [rbind].
      assert (flat_rep (PSeq (offs 0 (A ++ remove l k m :: B)) (mjoin (A ++ remove l k m :: B)))
                (A ++ remove l k m :: B)) as Hr' by done.
      rewrite (iter_rep _ _ _ _ _ Hr'). eexists. split; [done|]. done.
    - rewrite (decide_False (P := total A + k < total A + m)) by lia.
      rewrite (iter_rep _ _ _ _ _ Hr). eexists. split; [done|]. done.
  Qed.

  Lemma partition_rep s ls p :
    flat_rep s ls ->
    exists l, elems contiguous_policy ls p = Ok l /\ p_partition s p = Ok l /\ p_size_of s p = Ok (length l).
  Proof.
    intros Hr. unfold elems, p_partition, p_size_of. destruct (ls !! p) as [l|] eqn:Hp.
    - exists l. split; [done|]. apply split_lookup in Hp as (A & B & -> & <-).
      rewrite (begin_rep _ _ _ _ Hr), (end_rep _ _ _ _ Hr). cbn [rbind fst].
      destruct Hr as [_ Hd]. rewrite Hd, join_mid.
      rewrite decide_True by (rewrite !app_length; lia).
      replace (total A + length l - total A) with (length l) by lia.
      by rewrite drop_app, take_app.
    - exists (mjoin ls). split; [done|].
      rewrite (begin_out _ _ _ Hr Hp), (end_out _ _ _ Hr Hp). cbn [rbind fst].
      destruct Hr as [_ Hd]. rewrite Hd. rewrite decide_True by lia. rewrite Nat.sub_0_r, drop_0.
      by rewrite firstn_all.
  Qed.

  Lemma p_call_spec s ls c :
    flat_rep s ls ->
    match lol_call contiguous_policy ls c with
    | (Some ls', o) => exists s', p_call s c = (Some s', o) /\ flat_rep s' ls'
    | (None, o) => p_call s c = (None, o)
    end.
  Proof.
    intros Hr. destruct c as [|pos|n|i j|p v|p pos v|p pos|p k|p k q m| | | |p|p]; cbn [lol_call p_call].
    - destruct (add_slot_rep s ls Hr) as (s' & -> & H). by exists s'.
    - destruct (insert_slot_rep s ls pos Hr) as (s' & -> & H). by exists s'.
    - destruct (erase_slot_rep s ls n Hr) as (s' & -> & H). by exists s'.
    - destruct (ls !! i) as [x|] eqn:Hi; [destruct (ls !! j) as [y|] eqn:Hj|].
      + destruct (swap_rep_any s ls i j x y Hr Hi Hj) as (s' & -> & H). by exists s'.
      + exists s. apply lookup_ge_None in Hj. unfold p_swap_partitions. rewrite (num_rep _ _ Hr).
        rewrite decide_False by lia. done.
      + exists s. apply lookup_ge_None in Hi. unfold p_swap_partitions. rewrite (num_rep _ _ Hr).
        rewrite decide_False by lia. done.
    - destruct (ls !! p) as [l|] eqn:Hp.
      + apply split_lookup in Hp as (A & B & -> & <-). rewrite insert_mid.
        destruct (push_rep s A l B v Hr) as (s' & -> & H). by exists s'.
      + rewrite (push_out _ _ _ _ Hr Hp). by exists s.
    - destruct (ls !! p) as [l|] eqn:Hp.
      + apply split_lookup in Hp as (A & B & -> & <-). rewrite !insert_mid.
        destruct (insert_rep s A l B pos v Hr) as (s' & -> & H). case_decide as Hpos.
        * rewrite Nat.min_l in * by done. by exists s'.
        * rewrite Nat.min_r in * by lia. cbn [clamp contiguous_policy]. exists s'. split; [done|].
          unfold insert_at in H. by rewrite firstn_all, drop_all in H.
      + unfold p_insert. rewrite (begin_out _ _ _ Hr Hp), (end_out _ _ _ Hr Hp). cbn [rbind].
        exists s. split; [|done]. unfold p_next. by case_decide.
    - destruct (ls !! p) as [l|] eqn:Hp.
      + apply split_lookup in Hp as (A & B & -> & <-). rewrite insert_mid.
        unfold p_erase. rewrite (begin_rep _ _ _ _ Hr), (end_rep _ _ _ _ Hr). cbn [rbind].
        assert (p_next (total A, Some (length A)) (total A + length l, Some (length A)) pos =
                (total A + Nat.min pos (length l), Some (length A))) as ->.
        { unfold p_next. cbn. case_decide; f_equal; lia. }
        destruct (erase_rep s A l B (Nat.min pos (length l)) Hr ltac:(lia)) as (s' & -> & H).
        exists s'. split; [done|]. destruct (decide (pos <= length l)).
        * by rewrite Nat.min_l in H.
        * rewrite Nat.min_r in H by lia. unfold remove in *. rewrite remove_end in * by lia. done.
      + unfold p_erase. rewrite (begin_out _ _ _ Hr Hp), (end_out _ _ _ Hr Hp). cbn [rbind].
        exists s. split; [|done]. unfold p_next. by case_decide.
    - destruct (ls !! p) as [l|] eqn:Hp.
      + apply split_lookup in Hp as (A & B & -> & <-). rewrite insert_mid.
        rewrite (iterator_rep _ _ _ _ _ Hr). case_decide as Hk; [|done]. cbn [rbind].
        destruct (erase_rep s A l B k Hr Hk) as (s' & -> & H). by exists s'.
      + by rewrite (iterator_out _ _ _ _ Hr Hp).
    - destruct (ls !! p) as [l|] eqn:Hp.
      2:{ by rewrite (iterator_out _ _ _ _ Hr Hp). }
      destruct (ls !! q) as [l'|] eqn:Hq.
      + destruct (decide (p = q)) as [<-|Hpq].
        * assert (l' = l) as -> by congruence. clear Hq.
          apply split_lookup in Hp as (A & B & -> & <-). rewrite insert_mid.
          rewrite !(iterator_rep _ _ _ _ _ Hr).
          destruct (decide (k <= length l)) as [Hk|Hk];
            [|rewrite (decide_False (P := k <= length l /\ m <= length l)) by lia; done].
          destruct (decide (m <= length l)) as [Hm|Hm];
            [|rewrite (decide_False (P := k <= length l /\ m <= length l)) by lia; done].
          rewrite (decide_True (P := k <= length l /\ m <= length l)) by lia. cbn [rbind].
          destruct (erase_range_rep s A l B k m Hr Hk Hm) as (s' & -> & H). by exists s'.
        * apply split_lookup in Hp as (A & B & E & Ep). apply split_lookup in Hq as (A' & B' & E' & Eq).
          assert (flat_rep s (A ++ l :: B)) as Hr1 by (by rewrite <- E).
          assert (flat_rep s (A' ++ l' :: B')) as Hr2 by (by rewrite <- E').
          pose proof (iterator_rep _ _ _ _ k Hr1) as I1. pose proof (iterator_rep _ _ _ _ m Hr2) as I2.
          rewrite Ep in I1. rewrite Eq in I2. rewrite I1, I2. clear I1 I2.
          destruct (decide (k <= length l)) as [Hk|Hk];
            [|rewrite (decide_False (P := k <= length l /\ m <= length l')) by lia; done].
          destruct (decide (m <= length l')) as [Hm|Hm];
            [|rewrite (decide_False (P := k <= length l /\ m <= length l')) by lia; done].
          rewrite (decide_True (P := k <= length l /\ m <= length l')) by lia. cbn [rbind].
          exists s. split; [|done]. unfold p_erase_range. cbn [snd fst].
          pose proof (num_rep _ _ Hr1) as Hn. rewrite app_length in Hn. cbn in Hn.
          rewrite bool_decide_eq_false_2 by lia. cbn [andb].
          rewrite (decide_False (P := Some q = Some p)) by congruence. done.
      + rewrite (iterator_out _ _ _ _ Hr Hq). destruct (p_iterator s p k) as [it|e| |] eqn:E; cbn [rbind]; try done.
        apply split_lookup in Hp as (A & B & -> & <-). rewrite (iterator_rep _ _ _ _ _ Hr) in E.
        by case_decide.
    - by exists (PSeq [] []).
    - exists s. split; [|done]. by destruct Hr as [_ ->].
    - exists s. split; [|done]. by rewrite (num_rep _ _ Hr).
    - destruct (partition_rep s ls p Hr) as (l & -> & _ & ->). by exists s.
    - destruct (partition_rep s ls p Hr) as (l & -> & -> & _). by exists s.
  Qed.

  Lemma p_history s ls cs :
    flat_rep s ls -> phistory (@p_call T) s cs = phistory (lol_call contiguous_policy) ls cs.
  Proof.
    revert s ls. induction cs as [|c cs IH]; intros s ls Hr; cbn; [done|].
    pose proof (p_call_spec s ls c Hr) as H.
    destruct (lol_call contiguous_policy ls c) as [[ls'|] o].
    - destruct H as (s' & -> & Hr'). f_equal. by apply IH.
    - by rewrite H.
  Qed.

  Lemma p_push_loop s ls l0 l :
    flat_rep s (ls ++ [l0]) ->
    exists s', foldl (fun r v => rbind r (fun s => p_push_back s (length ls) v)) (Ok s) l = Ok s' /\
               flat_rep s' (ls ++ [l0 ++ l]).
  Proof.
    revert s l0. induction l as [|v l IH]; intros s l0 Hr; cbn [foldl rbind].
    - exists s. by rewrite app_nil_r.
    - destruct (push_rep s ls l0 [] v Hr) as (s1 & -> & Hr1).
      destruct (IH s1 (l0 ++ [v]) Hr1) as (s' & -> & Hr'). exists s'. split; [done|].
      by rewrite <- app_assoc in Hr'.
  Qed.

  Lemma p_make_loop ls s done_ls :
    flat_rep s done_ls ->
    exists s', foldl (fun r l => rbind r (fun s =>
                   foldl (fun r v => rbind r (fun s' => p_push_back s' (p_num s) v)) (p_add_slot s) l)) (Ok s) ls
                 = Ok s' /\ flat_rep s' (done_ls ++ ls).
  Proof.
    revert s done_ls. induction ls as [|l ls IH]; intros s done_ls Hr; cbn [foldl rbind].
    - exists s. by rewrite app_nil_r.
    - rewrite (num_rep _ _ Hr). destruct (add_slot_rep s done_ls Hr) as (s1 & -> & Hr1).
      destruct (p_push_loop s1 done_ls [] l Hr1) as (s2 & -> & Hr2).
      destruct (IH s2 (done_ls ++ [l]) Hr2) as (s' & E & Hr'). exists s'. split; [done|].
      by rewrite <- app_assoc in Hr'.
  Qed.

  Lemma p_make_spec ls : exists s, p_make ls = Ok s /\ flat_rep s ls.
  Proof. apply (p_make_loop ls (PSeq [] []) []). done. Qed.
End part.
