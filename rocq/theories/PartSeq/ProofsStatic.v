(** Lemmas for C11 and C12. *)
From stdpp Require Import list.
From Verif.Base Require Import Outcome Order ListLemmas.
From Verif.StaticDS Require Import Model Proofs.
From Verif.Mono Require Import Model Spec Proofs.
From Verif.PartSeq Require Import Model Spec StaticModel ProofsBucket ProofsFlat ProofsPart.

Section c11.
  Context {T : Type}.

  Lemma lol_call_agree (ls : list (list T)) c :
    in_range ls c = true -> lol_call contiguous_policy ls c = lol_call bucket_policy ls c.
  Proof.
    destruct c as [|pos|n|i j|p v|p pos v|p pos|p k|p k q m| | | |p|p]; cbn [lol_call in_range]; try done.
    - intros H. destruct (ls !! p) as [l|]; [|done]. apply bool_decide_eq_true in H. by case_decide.
    - intros H. apply bool_decide_eq_true in H. destruct (lookup_in_range ls p H) as [l ->]. done.
    - intros H. apply bool_decide_eq_true in H. destruct (lookup_in_range ls p H) as [l Hl].
      unfold elems. by rewrite Hl.
    - intros H. apply bool_decide_eq_true in H. destruct (lookup_in_range ls p H) as [l Hl].
      unfold elems. by rewrite Hl.
  Qed.

  Lemma lol_history_agree (ls : list (list T)) cs :
    all_in_range ls cs ->
    phistory (lol_call contiguous_policy) ls cs = phistory (lol_call bucket_policy) ls cs.
  Proof.
    revert ls. induction cs as [|c cs IH]; intros ls; cbn; [done|]. intros [Hc H].
    rewrite lol_call_agree by done.
    destruct (lol_call bucket_policy ls c) as [[ls'|] o]; [|done]. f_equal. by apply IH.
  Qed.

  Lemma interchangeable (ls : list (list T)) cs :
    all_in_range ls cs ->
    exists b p, b_make ls = Ok b /\ p_make ls = Ok p /\
      phistory (@b_call T) b cs = phistory (@p_call T) p cs.
  Proof.
    intros H. exists ls. destruct (p_make_spec ls) as (p & Hp & Hr). exists p.
    split; [apply b_make_spec|]. split; [done|].
    by rewrite b_history, (p_history _ _ _ Hr), lol_history_agree.
  Qed.
End c11.

Section c12.
  Context {T : Type}.
  Implicit Types (ls A B : list (list T)) (l : list T).
  Notation total ls := (length (mjoin ls)).

  Lemma sp_sizes_ok upper ls :
    Forall (fun l => length l <= upper) ls -> sp_sizes upper ls = Ok (length <$> ls).
  Proof.
    induction 1 as [|l ls Hl _ IH]; cbn [sp_sizes]; [done|]. rewrite decide_False by lia. rewrite IH. done.
  Qed.

  Lemma sp_sizes_bad upper ls :
    ~ Forall (fun l => length l <= upper) ls -> sp_sizes upper ls = Throw OutOfRange.
  Proof.
    induction ls as [|l ls IH]; cbn [sp_sizes]; [intros H; by destruct H|]. intros H.
    case_decide as Hl; [done|]. rewrite IH; [done|]. intros HF. apply H. constructor; [lia|done].
  Qed.

  Lemma total_bound ls upper : total ls <= upper -> Forall (fun l => length l <= upper) ls.
  Proof.
    induction ls as [|l ls IH]; [by constructor|]. rewrite total_cons. intros H.
    constructor; [lia|]. apply IH. lia.
  Qed.

  Lemma accumulate_step (upper x k : nat) (A B a : list nat) :
    a = A ++ x :: B -> k = length B ->
    sp_accumulate upper a (S (length A)) k =
      match B with
      | [] => Ok a
      | y :: B' =>
        if decide (upper - x < y) then Throw OutOfRange
        else sp_accumulate upper (A ++ x :: (y + x) :: B') (S (S (length A))) (k - 1)
      end.
  Proof.
    intros -> ->. destruct B as [|y B]; [done|]. cbn [length sp_accumulate].
    replace (S (length A) - 1) with (length A) by lia.
    unfold rget at 1. rewrite list_lookup_middle by done. cbn [rbind].
    assert (A ++ x :: y :: B = (A ++ [x]) ++ y :: B) as E by (by rewrite <- app_assoc).
    rewrite E. unfold rget. rewrite list_lookup_middle by (rewrite app_length; cbn; lia). cbn [rbind].
    case_decide; [done|].
    unfold rset. rewrite list_lookup_middle by (rewrite app_length; cbn; lia). cbn [rbind].
    rewrite insert_app_r_alt by (rewrite app_length; cbn; lia).
    replace (S (length A) - length (A ++ [x])) with 0 by (rewrite app_length; cbn; lia).
    cbn [base.insert list_insert]. rewrite <- app_assoc. cbn [app]. rewrite Nat.add_1_r. f_equal. lia.
  Qed.

  Lemma accumulate_ok upper n0 P x ls :
    x = n0 + 0 -> n0 + total ls <= upper ->
    sp_accumulate upper (P ++ x :: (length <$> ls)) (S (length P)) (length ls) = Ok (P ++ x :: offs n0 ls).
  Proof.
    rewrite Nat.add_0_r. intros -> H. revert n0 P H. induction ls as [|l ls IH]; intros n0 P H.
    { done. }
    rewrite total_cons in H.
    rewrite (accumulate_step upper n0 (length (l :: ls)) P (length <$> (l :: ls)));
      [|done|by rewrite fmap_length].
    cbn [fmap list_fmap]. rewrite decide_False by lia.
    cbn [length]. replace (S (length ls) - 1) with (length ls) by lia.
    specialize (IH (n0 + length l) (P ++ [n0]) ltac:(lia)). rewrite app_length in IH. cbn [length] in IH.
    rewrite Nat.add_1_r in IH. rewrite <- !app_assoc in IH. cbn [app] in IH.
    replace (length l + n0) with (n0 + length l) by lia. done.
  Qed.

  Lemma accumulate_bad upper n0 P ls :
    n0 <= upper -> upper < n0 + total ls ->
    sp_accumulate upper (P ++ n0 :: (length <$> ls)) (S (length P)) (length ls) = Throw OutOfRange.
  Proof.
    revert n0 P. induction ls as [|l ls IH]; intros n0 P H0 H.
    { cbn in H. lia. }
    rewrite total_cons in H.
    rewrite (accumulate_step upper n0 (length (l :: ls)) P (length <$> (l :: ls)));
      [|done|by rewrite fmap_length].
    cbn [fmap list_fmap]. case_decide as Hd; [done|].
    cbn [length]. replace (S (length ls) - 1) with (length ls) by lia.
    specialize (IH (n0 + length l) (P ++ [n0]) ltac:(lia) ltac:(lia)). rewrite app_length in IH. cbn [length] in IH.
    rewrite Nat.add_1_r in IH. rewrite <- !app_assoc in IH. cbn [app] in IH.
    replace (length l + n0) with (n0 + length l) by lia. done.
  Qed.

  Lemma offs_lookup_mono n ls i x y :
    offs n ls !! i = Some x -> offs n ls !! S i = Some y -> x <= y.
  Proof.
    revert n i. induction ls as [|l ls IH]; intros n i; cbn [offs]; [done|]. destruct i as [|i]; cbn.
    - intros [= <-]. destruct ls; cbn; [done|]. intros [= <-]. lia.
    - apply IH.
  Qed.

  Lemma offs_monotonic n ls : monotonic gtb (offs n ls).
  Proof.
    intros i x y Hx Hy. pose proof (offs_lookup_mono _ _ _ _ _ Hx Hy).
    unfold gtb. apply Nat.ltb_ge. done.
  Qed.

  Lemma make_partitions_ok upper ls :
    total ls <= upper -> sp_make_partitions upper ls = Ok (offs 0 ls).
  Proof.
    intros H. unfold sp_make_partitions. rewrite sp_sizes_ok by (by apply total_bound). cbn [rbind].
    assert (sp_accumulate upper (length <$> ls) 1 (length (length <$> ls) - 1) = Ok (offs 0 ls)) as ->.
    { destruct ls as [|l ls]; [done|]. cbn [fmap list_fmap length]. rewrite Nat.sub_succ, Nat.sub_0_r.
      rewrite total_cons in H.
      change (list_fmap _ _ length ls) with (length <$> ls). rewrite fmap_length.
      apply (accumulate_ok upper (length l) []); cbn; lia. }
    cbn [rbind].
    destruct (static_mono_make_spec gtb 0 (length (offs 0 ls)) (offs 0 ls)) as [Hm _]; [done|].
    rewrite Nat.sub_diag in Hm. cbn [replicate] in Hm. rewrite app_nil_r in Hm. apply Hm, offs_monotonic.
  Qed.

  Lemma make_partitions_bad upper ls :
    upper < total ls -> sp_make_partitions upper ls = Throw OutOfRange.
  Proof.
    intros H. unfold sp_make_partitions.
    destruct (decide (Forall (fun l => length l <= upper) ls)) as [HF|HF];
      [|by rewrite sp_sizes_bad].
    rewrite sp_sizes_ok by done. cbn [rbind].
    destruct ls as [|l ls]; [cbn in H; lia|]. cbn [fmap list_fmap length]. rewrite Nat.sub_succ, Nat.sub_0_r.
    apply Forall_cons in HF as [Hl _]. rewrite total_cons in H.
    change (list_fmap _ _ length ls) with (length <$> ls). rewrite fmap_length.
    pose proof (accumulate_bad upper (length l) [] ls Hl H) as Hb. cbn [app length] in Hb. by rewrite Hb.
  Qed.

  Lemma advance_ok fuel upper ls i B A l :
    ls = A ++ l :: B -> total A <= i -> i <= total A + length l -> i < total ls ->
    length ls <= upper + 1 -> length B < fuel ->
    exists A' l' B', ls = A' ++ l' :: B' /\ sp_advance fuel upper (offs 0 ls) i (length A) = Ok (length A') /\
      total A' <= i /\ i < total A' + length l'.
  Proof.
    revert fuel A l. induction B as [|l1 B IH]; intros fuel A l Hls Hlo Hhi Hi Hup Hf.
    - destruct fuel as [|fuel]; [cbn in Hf; lia|]. cbn [sp_advance].
      assert (offs 0 ls !! length A = Some (total A + length l)) as Ho by (rewrite Hls; apply offs_at).
      rewrite (rget_some _ _ _ Ho). cbn [rbind].
      rewrite Hls, total_app, total_cons, total_nil in Hi.
      rewrite decide_False by lia. exists A, l, []. repeat split; try done. lia.
    - destruct fuel as [|fuel]; [cbn in Hf; lia|]. cbn [sp_advance].
      assert (offs 0 ls !! length A = Some (total A + length l)) as Ho by (rewrite Hls; apply offs_at).
      rewrite (rget_some _ _ _ Ho). cbn [rbind].
      case_decide as He.
      + assert (length A + 2 <= upper + 1) as HA.
        { rewrite Hls, app_length in Hup. cbn in Hup. lia. }
        rewrite decide_False by lia.
        replace (length A + 1) with (length (A ++ [l])) by (by rewrite app_length).
        apply (IH fuel (A ++ [l]) l1); try done.
        * by rewrite <- app_assoc.
        * rewrite total_app, total_cons, total_nil. lia.
        * rewrite total_app, total_cons, total_nil. lia.
        * cbn in Hf. lia.
      + exists A, l, (l1 :: B). repeat split; try done. lia.
  Qed.

  Lemma join_lookup A l B i :
    total A <= i -> i < total A + length l -> mjoin (A ++ l :: B) !! i = l !! (i - total A).
  Proof. intros H1 H2. rewrite join_mid, lookup_app_r, lookup_app_l by lia. done. Qed.

  Lemma elements_ok fuel upper ls k i A l B :
    ls = A ++ l :: B -> total A <= i -> i <= total A + length l -> i + k = total ls ->
    length ls <= upper + 1 -> length ls <= fuel ->
    sp_elements fuel upper ls (offs 0 ls) i k (length A) = Ok (drop i (mjoin ls)).
  Proof.
    revert i A l B. induction k as [|k IH]; intros i A l B Hls Hlo Hhi Hik Hup Hf; cbn [sp_elements].
    { by rewrite drop_ge by lia. }
    destruct (advance_ok fuel upper ls i B A l) as (A' & l' & B' & Hls' & Ha & Hlo' & Hhi'); try done; try lia.
    { rewrite Hls, app_length in Hf. cbn in Hf. lia. }
    unfold sp_make_element. rewrite Ha. cbn [rbind].
    assert ((if decide (length A' = 0) then Ok 0 else rget (offs 0 ls) (length A' - 1)) = Ok (total A')) as ->.
    { rewrite Hls', <- (offs_before A' (l' :: B')). repeat case_decide; try done; lia. }
    cbn [rbind]. rewrite decide_False by lia.
    assert (ls !! length A' = Some l') as Hl' by (rewrite Hls'; by apply list_lookup_middle).
    rewrite (rget_some _ _ _ Hl'). cbn [rbind].
    destruct (lookup_in_range l' (i - total A') ltac:(lia)) as [x Hx].
    rewrite (rget_some _ _ _ Hx). cbn [rbind fst snd].
    rewrite (IH (i + 1) A' l' B'); try done; try lia. cbn [rbind]. f_equal.
    rewrite Nat.add_1_r. symmetry. apply drop_S. rewrite Hls', join_lookup by lia. done.
  Qed.

  Lemma foldl_total ls : foldl (fun n l => n + length l) 0 ls = total ls.
  Proof. by rewrite b_size_foldl. Qed.

  Lemma sp_make_ok upper ls :
    total ls <= upper -> length ls <= upper + 1 ->
    exists s, (forall fuel, length ls <= fuel ->
                 sp_make fuel upper (length ls) (total ls) ls = Ok s) /\ flat_rep s ls.
  Proof.
    intros H1 H2. exists (PSeq (offs 0 ls) (mjoin ls)). split; [|done]. intros fuel H3.
    unfold sp_make. rewrite decide_False by (intros H; apply H; done).
    rewrite make_partitions_ok by done. cbn [rbind]. rewrite foldl_total.
    rewrite decide_False by (intros H; apply H; done).
    destruct ls as [|l ls]; [done|].
    rewrite (elements_ok fuel upper (l :: ls) (total (l :: ls)) 0 [] l ls); try done.
    cbn. lia.
  Qed.

  Lemma sp_make_shape fuel upper np ne ls :
    (length ls <> np -> sp_make fuel upper np ne ls = Throw LogicError) /\
    (length ls = np -> total ls <= upper -> total ls <> ne -> sp_make fuel upper np ne ls = Throw LogicError) /\
    (length ls = np -> upper < total ls -> sp_make fuel upper np ne ls = Throw OutOfRange).
  Proof.
    unfold sp_make. split; [|split].
    - intros H. by rewrite decide_True.
    - intros <- H1 H2. rewrite decide_False by (intros H; apply H; done).
      rewrite make_partitions_ok by done. cbn [rbind]. rewrite foldl_total. by rewrite decide_True.
    - intros <- H1. rewrite decide_False by (intros H; apply H; done).
      by rewrite make_partitions_bad.
  Qed.

  Lemma static_sequence upper ls :
    total ls <= upper -> length ls <= upper + 1 ->
    exists s, (forall fuel, length ls <= fuel ->
                 sp_make fuel upper (length ls) (total ls) ls = Ok s) /\
      forall cs, Forall (fun c => static_call c = true) cs ->
        phistory (@p_call T) s cs = phistory (lol_call contiguous_policy) ls cs.
  Proof.
    intros H1 H2. destruct (sp_make_ok upper ls H1 H2) as (s & Hs & Hr). exists s. split; [done|].
    intros cs _. by apply p_history.
  Qed.

  (** With too many partitions for the index type the search never ends. *)
  Lemma advance_wraps fuel upper parts pidx :
    pidx <= upper -> (forall j, j <= upper -> parts !! j = Some 0) ->
    sp_advance fuel upper parts 0 pidx = NoFuel.
  Proof.
    revert pidx. induction fuel as [|fuel IH]; intros pidx Hp H; cbn [sp_advance]; [done|].
    rewrite (rget_some _ _ _ (H pidx Hp)). cbn [rbind]. rewrite decide_True by done.
    apply IH; [|done]. case_decide; lia.
  Qed.

  Lemma offs_replicate n m ls : offs n (replicate m [] ++ ls) = replicate m n ++ offs n ls.
  Proof.
    induction m as [|m IH]; [done|]. cbn [replicate app offs length]. by rewrite Nat.add_0_r, IH.
  Qed.

  Lemma sp_make_wraps fuel upper (x : T) :
    1 <= upper ->
    sp_make fuel upper (upper + 2) 1 (replicate (upper + 1) [] ++ [[x]]) = NoFuel.
  Proof.
    intros Hu. set (ls := replicate (upper + 1) [] ++ [[x]]).
    assert (length ls = upper + 2) as Hl by (unfold ls; rewrite app_length, replicate_length; cbn; lia).
    assert (total ls = 1) as Ht.
    { unfold ls. rewrite total_app. cbn. rewrite (proj2 (join_nil _)); [done|].
      apply Forall_replicate. done. }
    unfold sp_make. rewrite decide_False by (intros H; by apply H).
    rewrite make_partitions_ok by lia. cbn [rbind]. rewrite foldl_total, Ht.
    rewrite decide_False by (intros H; by apply H). cbn [sp_elements].
    unfold sp_make_element. rewrite advance_wraps; [done|lia|].
    intros j Hj. unfold ls. rewrite offs_replicate. rewrite lookup_app_l by (rewrite replicate_length; lia).
    apply lookup_replicate. split; [done|lia].
  Qed.
End c12.

Lemma sp_make_wraps_8bit :
  exists (upper : nat) (ls : list (list nat)),
    length (mjoin ls) <= upper /\
    forall fuel, sp_make fuel upper (length ls) (length (mjoin ls)) ls = NoFuel.
Proof.
  exists 255, (replicate 256 [] ++ [[7]]). split; [apply Nat.leb_le; by vm_compute|]. intros fuel.
  exact (sp_make_wraps fuel 255 7 ltac:(apply Nat.leb_le; by vm_compute)).
Qed.

Section final.
  Context {T : Type}.

  Lemma b_make_history (ls : list (list T)) :
    exists s, b_make ls = Ok s /\
      forall cs, phistory b_call s cs = phistory (lol_call bucket_policy) ls cs.
  Proof. exists ls. split; [apply b_make_spec|]. intros cs. apply b_history. Qed.

  Lemma p_make_history (ls : list (list T)) :
    exists s, p_make ls = Ok s /\
      forall cs, phistory p_call s cs = phistory (lol_call contiguous_policy) ls cs.
  Proof. destruct (p_make_spec ls) as (s & Hs & Hr). exists s. split; [done|]. intros cs. by apply p_history. Qed.

  Lemma b_call_throw (s : bucketed T) c e s' : b_call s c = (s', PRaised e) -> s' = Some s.
  Proof.
    rewrite b_call_spec. destruct c as [|pos|n|i j|p v|p pos v|p pos|p k|p k q m| | | |p|p]; cbn [lol_call];
      intros Hc; repeat case_match; simplify_eq; try done.
  Qed.

  Lemma p_after s cs s' (ls : list (list T)) :
    flat_rep s ls -> pafter (@p_call T) s cs = Some s' -> exists ls', flat_rep s' ls'.
  Proof.
    revert s ls. induction cs as [|c cs IH]; intros s ls Hr; cbn.
    - intros [= <-]. by exists ls.
    - pose proof (p_call_spec s ls c Hr) as H. destruct (lol_call contiguous_policy ls c) as [[ls'|] o].
      + destruct H as (s1 & -> & Hr'). cbn. by apply IH with (ls := ls').
      + rewrite H. done.
  Qed.

  Lemma p_offsets (ls : list (list T)) cs s s' :
    p_make ls = Ok s -> pafter (@p_call T) s cs = Some s' ->
    monotonic gtb (p_parts s') /\
    (forall n, last (p_parts s') = Some n -> n = length (p_data s')) /\
    (p_parts s' = [] -> p_data s' = []).
  Proof.
    intros Hs Ha. destruct (p_make_spec ls) as (s0 & Hs0 & Hr). assert (s0 = s) as -> by congruence.
    destruct (p_after _ _ _ _ Hr Ha) as (ls' & Hp & Hd). rewrite Hp, Hd. split; [|split].
    - apply offs_monotonic.
    - destruct ls' as [|l ls']; [done|]. intros n. rewrite offs_last by done. intros [= <-]. done.
    - by destruct ls'.
  Qed.
End final.
