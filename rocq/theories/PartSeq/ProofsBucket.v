(** Lemmas for C09: bucketed_sequence is a list of lists. *)
From stdpp Require Import list.
From Verif.Base Require Import Outcome ListLemmas.
From Verif.PartSeq Require Import Model Spec.

Lemma vec_insert_ok {A} (l : list A) i x :
  i <= length l -> vec_insert l i x = Ok (take i l ++ x :: drop i l).
Proof. intros H. unfold vec_insert. by rewrite decide_True. Qed.

Lemma vec_erase_ok {A} (l : list A) f e :
  f <= e -> e <= length l -> vec_erase l f e = Ok (take f l ++ drop e l).
Proof. intros H1 H2. unfold vec_erase. by rewrite decide_True. Qed.

Lemma rget_some {A} (l : list A) i x : l !! i = Some x -> rget l i = Ok x.
Proof. by apply rget_ok. Qed.

Lemma rset_some {A} (l : list A) i x y : l !! i = Some x -> rset l i y = Ok (<[i:=y]> l).
Proof. intros H. apply rset_ok. split; [by eapply lookup_lt_Some|done]. Qed.

Lemma remove_end {A} (l : list A) k : length l <= k -> take k l ++ drop (S k) l = l.
Proof. intros H. rewrite take_ge, drop_ge by lia. by rewrite app_nil_r. Qed.

Section bucketed.
  Context {T : Type}.

  Lemma b_check_range_ok (s : bucketed T) i x : s !! i = Some x -> b_check_range s i = Ok tt.
  Proof. intros H. apply lookup_lt_Some in H. unfold b_check_range. by rewrite decide_False by lia. Qed.

  Lemma b_check_range_bad (s : bucketed T) i : s !! i = None -> b_check_range s i = Throw OutOfRange.
  Proof. intros H. apply lookup_ge_None in H. unfold b_check_range. by rewrite decide_True by lia. Qed.

  Lemma b_size_foldl (s : bucketed T) n : foldl (fun n (b : list T) => n + length b) n s = n + length (mjoin s).
  Proof.
    revert n. induction s as [|b s IH]; intros n; cbn [foldl].
    { change (mjoin (@nil (list T))) with (@nil T). cbn. lia. }
    rewrite IH. change (mjoin (b :: s)) with (b ++ mjoin s). rewrite app_length. lia.
  Qed.

  Lemma b_call_spec (s : bucketed T) c : b_call s c = lol_call bucket_policy s c.
  Proof.
    destruct c as [|pos|n|i j|p v|p pos v|p pos|p k|p k q m| | | |p|p]; cbn [b_call lol_call].
    - done.
    - unfold b_insert_slot. case_decide as H.
      + rewrite vec_insert_ok by lia. done.
      + unfold b_add_slot. rewrite take_ge, drop_ge by lia. done.
    - unfold b_erase_slot. case_decide as H.
      + rewrite vec_erase_ok by lia. rewrite Nat.add_1_r. done.
      + rewrite remove_end by lia. done.
    - unfold b_swap_partitions. case_decide as H.
      + destruct (lookup_in_range s i) as [x Hx]; [lia|]. destruct (lookup_in_range s j) as [y Hy]; [lia|].
        case_decide as Hij.
        * subst j. rewrite Hx. cbn. by rewrite !(list_insert_id s i x Hx).
        * unfold rswap. rewrite Hx, Hy. done.
      + destruct (s !! i) eqn:Hx; [|done]. destruct (s !! j) eqn:Hy; [|done].
        apply lookup_lt_Some in Hx, Hy. lia.
    - unfold b_push_back. destruct (s !! p) as [l|] eqn:Hl.
      + rewrite (b_check_range_ok _ _ _ Hl), (rget_some _ _ _ Hl). cbn [rbind].
        rewrite (rset_some _ _ _ _ Hl). done.
      + rewrite (b_check_range_bad _ _ Hl). done.
    - unfold b_insert, b_check_range_pos, b_insert_iter. destruct (s !! p) as [l|] eqn:Hl.
      + rewrite (b_check_range_ok _ _ _ Hl), (rget_some _ _ _ Hl). cbn [rbind].
        cbn [clamp bucket_policy]. destruct (decide (pos <= length l)) as [H|H].
        * rewrite decide_False by lia. cbn [rbind]. rewrite Nat.min_l by lia.
          rewrite vec_insert_ok by lia. cbn [rbind]. rewrite (rset_some _ _ _ _ Hl). done.
        * rewrite decide_True by lia. done.
      + rewrite (b_check_range_bad _ _ Hl). done.
    - unfold b_erase, b_check_for_empty. destruct (s !! p) as [l|] eqn:Hl.
      + pose proof (lookup_lt_Some _ _ _ Hl) as Hp. rewrite decide_False by lia. cbn [rbind].
        rewrite decide_True by lia. rewrite (rget_some _ _ _ Hl). cbn [rbind].
        unfold b_erase_iter. rewrite decide_False by lia. rewrite (rget_some _ _ _ Hl). cbn [rbind].
        destruct (decide (pos < length l)) as [H|H].
        * rewrite Nat.min_l by lia. rewrite decide_False by lia.
          rewrite vec_erase_ok by lia. cbn [rbind]. rewrite (rset_some _ _ _ _ Hl). cbn.
          unfold remove. rewrite Nat.add_1_r. done.
        * rewrite Nat.min_r by lia. rewrite decide_True by lia. cbn. unfold remove.
          rewrite remove_end by lia. by rewrite list_insert_id.
      + pose proof (proj1 (lookup_ge_None _ _) Hl) as Hp. destruct s as [|b s]; [done|].
        cbn [length] in *. rewrite decide_False by lia. cbn [rbind]. rewrite decide_False by lia.
        unfold b_erase_iter, b_check_for_empty. cbn [length]. rewrite decide_False by lia. done.
    - unfold b_valid. destruct (s !! p) as [l|] eqn:Hl; [|done].
      pose proof (lookup_lt_Some _ _ _ Hl) as Hp.
      case_bool_decide as H.
      + rewrite decide_True by done. unfold b_erase_iter. rewrite decide_False by lia.
        rewrite (rget_some _ _ _ Hl). cbn [rbind]. case_decide as Hk.
        * subst k. unfold remove. rewrite remove_end by lia. by rewrite list_insert_id.
        * rewrite vec_erase_ok by lia. cbn [rbind]. rewrite (rset_some _ _ _ _ Hl).
          rewrite Nat.add_1_r. done.
      + by rewrite decide_False.
    - unfold b_valid. destruct (s !! p) as [l|] eqn:Hl; [|done].
      destruct (s !! q) as [l'|] eqn:Hl'.
      + pose proof (lookup_lt_Some _ _ _ Hl) as Hp. pose proof (lookup_lt_Some _ _ _ Hl') as Hq.
        case_bool_decide as H1; cbn [andb]; [|by rewrite decide_False by lia].
        case_bool_decide as H2; [|by rewrite decide_False by lia].
        rewrite decide_True by done. unfold b_erase_range. rewrite decide_False by lia.
        destruct (decide (q = p)) as [->|Hqp].
        * rewrite (decide_True (P := p = p)) by done. assert (l' = l) as -> by congruence.
          case_decide as Hkm.
          -- rewrite (rget_some _ _ _ Hl). cbn [rbind]. rewrite vec_erase_ok by lia. cbn [rbind].
             rewrite (rset_some _ _ _ _ Hl). done.
          -- done.
        * rewrite decide_False by congruence. done.
      + by rewrite andb_false_r.
    - done.
    - unfold b_size. rewrite b_size_foldl. done.
    - done.
    - unfold b_size_of, b_partition, b_check_for_empty, elems. destruct (s !! p) as [l|] eqn:Hl.
      + pose proof (lookup_lt_Some _ _ _ Hl) as Hp. rewrite decide_False by lia. cbn [rbind].
        rewrite decide_True by done. by rewrite (rget_some _ _ _ Hl).
      + pose proof (proj1 (lookup_ge_None _ _) Hl) as Hp. destruct s as [|b s]; [done|].
        cbn [length] in *. rewrite decide_False by lia. cbn [rbind]. rewrite decide_False by lia. done.
    - unfold b_partition, b_check_for_empty, elems. destruct (s !! p) as [l|] eqn:Hl.
      + pose proof (lookup_lt_Some _ _ _ Hl) as Hp. rewrite decide_False by lia. cbn [rbind].
        rewrite decide_True by done. by rewrite (rget_some _ _ _ Hl).
      + pose proof (proj1 (lookup_ge_None _ _) Hl) as Hp. destruct s as [|b s]; [done|].
        cbn [length] in *. rewrite decide_False by lia. cbn [rbind]. rewrite decide_False by lia. done.
  Qed.

  Lemma b_history s cs : phistory (@b_call T) s cs = phistory (lol_call bucket_policy) s cs.
  Proof.
    revert s. induction cs as [|c cs IH]; intros s; [done|]. cbn [phistory].
    rewrite b_call_spec. destruct (lol_call bucket_policy s c) as [[s'|] o]; [|done]. by rewrite IH.
  Qed.


  Lemma b_push_loop (s : bucketed T) l0 l :
    foldl (fun r v => rbind r (fun s' => b_push_back s' (length s) v)) (Ok (s ++ [l0])) l =
    Ok (s ++ [l0 ++ l]).
  Proof.
    revert l0. induction l as [|v l IH]; intros l0; cbn [foldl]; [by rewrite app_nil_r|].
    assert (b_push_back (s ++ [l0]) (length s) v = Ok (s ++ [l0 ++ [v]])) as E.
    { unfold b_push_back. rewrite (b_check_range_ok _ _ l0) by (by apply list_lookup_middle). cbn [rbind].
      rewrite (rget_some _ _ l0) by (by apply list_lookup_middle). cbn [rbind].
      rewrite (rset_some _ _ l0) by (by apply list_lookup_middle).
      rewrite insert_app_r_alt by lia. by rewrite Nat.sub_diag. }
    cbn [rbind]. rewrite E, IH. by rewrite <- app_assoc.
  Qed.

  Lemma b_make_spec (ls : list (list T)) : b_make ls = Ok ls.
  Proof.
    unfold b_make. cut (forall s, foldl (fun r l => rbind r (fun s =>
        foldl (fun r v => rbind r (fun s' => b_push_back s' (length s) v)) (Ok (b_add_slot s)) l))
      (Ok s) ls = Ok (s ++ ls)).
    { intros H. apply (H []). }
    induction ls as [|l ls IH]; intros s; cbn [foldl rbind]; [by rewrite app_nil_r|].
    unfold b_add_slot. rewrite b_push_loop. cbn [app]. rewrite IH. by rewrite <- app_assoc.
  Qed.
End bucketed.
