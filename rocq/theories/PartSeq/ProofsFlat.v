(** Lemmas for C10: partitioned_sequence is a list of lists. *)
From stdpp Require Import list.
From Verif.Base Require Import Outcome Order ListLemmas.
From Verif.Mono Require Import Model.
From Verif.PartSeq Require Import Model Spec ProofsBucket.

Section flat.
  Context {T : Type}.
  Implicit Types (ls A B : list (list T)) (l : list T).

  Notation total ls := (length (mjoin ls)).

  (** The cumulative sizes of the partitions, starting from [n]. *)
  Fixpoint offs (n : nat) ls : list nat :=
    match ls with
    | [] => []
    | l :: ls' => (n + length l) :: offs (n + length l) ls'
    end.

  Definition flat_rep (s : pseq T) ls : Prop := p_parts s = offs 0 ls /\ p_data s = mjoin ls.

  Lemma total_cons l ls : total (l :: ls) = length l + total ls.
  Proof. change (mjoin (l :: ls)) with (l ++ mjoin ls). by rewrite app_length. Qed.

  Lemma total_nil : total (@nil (list T)) = 0.
  Proof. done. Qed.

  Lemma join_app A B : mjoin (A ++ B) = mjoin A ++ mjoin B.
  Proof. 
    induction A as [|l A IH]; [done|]. cbn [app].
    change (mjoin (l :: A ++ B)) with (l ++ mjoin (A ++ B)).
    change (mjoin (l :: A)) with (l ++ mjoin A). by rewrite IH, app_assoc.
  Qed.

  Lemma join_mid A l B : mjoin (A ++ l :: B) = mjoin A ++ l ++ mjoin B.
  Proof. by rewrite join_app. Qed.

  Lemma total_app A B : total (A ++ B) = total A + total B.
  Proof. by rewrite join_app, app_length. Qed.

  Lemma offs_length n ls : length (offs n ls) = length ls.
  Proof. revert n. induction ls as [|l ls IH]; intros n; cbn; [done|]. by rewrite IH. Qed.

  Lemma offs_app n A B : offs n (A ++ B) = offs n A ++ offs (n + total A) B.
  Proof.
    revert n. induction A as [|l A IH]; intros n; cbn [app offs].
    - by rewrite total_nil, Nat.add_0_r.
    - rewrite IH, total_cons. cbn. by rewrite Nat.add_assoc.
  Qed.

  Lemma offs_mid A l B : offs 0 (A ++ l :: B) = offs 0 A ++ (total A + length l) :: offs (total A + length l) B.
  Proof. by rewrite offs_app. Qed.

  Lemma offs_last n A : A <> [] -> last (offs n A) = Some (n + total A).
  Proof.
    revert n. induction A as [|l A IH]; intros n HA; [done|]. cbn [offs].
    destruct A as [|l' A].
    - cbn. rewrite app_nil_r. done.
    - rewrite total_cons, Nat.add_assoc. rewrite <- IH by done. done.
  Qed.

  Lemma offs_shift n k ls : fmap (fun x => x + k) (offs n ls) = offs (n + k) ls.
  Proof.
    revert n. induction ls as [|l ls IH]; intros n; cbn; [done|]. f_equal; [lia|].
    change (list_fmap _ _ (fun x => x + k) (offs (n + length l) ls)) with
      (fmap (fun x => x + k) (offs (n + length l) ls)).
    rewrite IH. f_equal. lia.
  Qed.

  Lemma offs_unshift n k ls : fmap (fun x => x - k) (offs (n + k) ls) = offs n ls.
  Proof.
    revert n. induction ls as [|l ls IH]; intros n; cbn; [done|]. f_equal; [lia|].
    change (list_fmap _ _ (fun x => x - k) (offs (n + k + length l) ls)) with
      (fmap (fun x => x - k) (offs (n + k + length l) ls)).
    replace (n + k + length l) with (n + length l + k) by lia. apply IH.
  Qed.

  (** The offset just before partition [length A]. *)
  Lemma offs_before A ls :
    (if decide (0 < length A) then rget (offs 0 (A ++ ls)) (length A - 1) else Ok 0) = Ok (total A).
  Proof.
    case_decide as H.
    - apply rget_ok. rewrite offs_app, lookup_app_l by (rewrite offs_length; lia).
      assert (A <> []) as HA by (intros ->; cbn in H; lia).
      pose proof (offs_last 0 A HA) as Hl. rewrite last_lookup, offs_length in Hl.
      replace (length A - 1) with (Nat.pred (length A)) by lia. done.
    - assert (length A = 0) as H0 by lia. apply nil_length_inv in H0 as ->. done.
  Qed.

  Lemma offs_at A l B : offs 0 (A ++ l :: B) !! length A = Some (total A + length l).
  Proof. rewrite offs_mid. apply list_lookup_middle. by rewrite offs_length. Qed.

  Lemma mutate_unsafe_ok (f : nat -> nat) X M Y :
    mutate_unsafe (X ++ M ++ Y) (length X) (length X + length M) (fun x => Ok (f x)) =
      (X ++ fmap f M ++ Y, Ok tt).
  Proof.
    unfold mutate_unsafe. replace (length X + length M - length X) with (length M) by lia.
    revert X. induction M as [|m M IH]; intros X; cbn [length mutate_unsafe_loop app]; [done|].
    unfold rget. rewrite list_lookup_middle by done.
    rewrite insert_app_r_alt by lia. rewrite Nat.sub_diag. cbn [base.insert list_insert].
    specialize (IH (X ++ [f m])). rewrite app_length in IH. cbn [length] in IH.
    rewrite <- !app_assoc in IH. cbn [app] in IH.
    cbn [app]. rewrite IH. done.
  Qed.

  Lemma mutate_unsafe_tail (f : nat -> nat) X M i j :
    i = length X -> j = length X + length M ->
    mutate_unsafe (X ++ M) i j (fun x => Ok (f x)) = (X ++ fmap f M, Ok tt).
  Proof. intros -> ->. pose proof (mutate_unsafe_ok f X M []) as H. by rewrite !app_nil_r in H. Qed.

  Lemma split_lookup ls p l :
    ls !! p = Some l -> exists A B, ls = A ++ l :: B /\ length A = p.
  Proof.
    intros H. exists (take p ls), (drop (S p) ls). split; [by rewrite take_drop_middle|].
    rewrite take_length. apply lookup_lt_Some in H. lia.
  Qed.

  Lemma num_rep s ls : flat_rep s ls -> p_num s = length ls.
  Proof. intros [H _]. unfold p_num. by rewrite H, offs_length. Qed.

  Lemma begin_rep s A l B :
    flat_rep s (A ++ l :: B) -> p_begin s (length A) = Ok (total A, Some (length A)).
  Proof.
    intros Hr. pose proof (num_rep _ _ Hr) as Hn. rewrite app_length in Hn. cbn in Hn.
    destruct Hr as [Hp _]. unfold p_begin. rewrite Hn, Hp.
    rewrite (decide_False (P := length A + S (length B) <= length A)) by lia.
    pose proof (offs_before A (l :: B)) as H.
    destruct (decide (0 < length A)).
    - rewrite decide_True by lia. rewrite H. done.
    - rewrite decide_False by lia. injection H as <-. done.
  Qed.

  Lemma end_rep s A l B :
    flat_rep s (A ++ l :: B) -> p_end s (length A) = Ok (total A + length l, Some (length A)).
  Proof.
    intros Hr. pose proof (num_rep _ _ Hr) as Hn. rewrite app_length in Hn. cbn in Hn.
    destruct Hr as [Hp _]. unfold p_end. rewrite Hn, Hp. rewrite decide_True by lia.
    rewrite (rget_some _ _ _ (offs_at A l B)). done.
  Qed.

  Lemma begin_out s ls p :
    flat_rep s ls -> ls !! p = None -> p_begin s p = Ok (0, None).
  Proof.
    intros Hr Hp. apply lookup_ge_None in Hp. unfold p_begin. rewrite (num_rep _ _ Hr).
    rewrite (decide_True (P := length ls <= p)) by done.
    rewrite decide_False by lia. done.
  Qed.

  Lemma end_out s ls p :
    flat_rep s ls -> ls !! p = None -> p_end s p = Ok (total ls, None).
  Proof.
    intros Hr Hp. apply lookup_ge_None in Hp. unfold p_end. rewrite (num_rep _ _ Hr).
    rewrite decide_False by lia. by destruct Hr as [_ ->].
  Qed.

  Lemma increment_rep s A l B :
    flat_rep s (A ++ l :: B) -> forall l', length l' = length l + 1 ->
    p_increment s (length A) = Ok (offs 0 (A ++ l' :: B)).
  Proof.
    intros Hr l' Hl'. pose proof (num_rep _ _ Hr) as Hn. rewrite app_length in Hn. cbn in Hn.
    destruct Hr as [Hp _]. unfold p_increment. rewrite Hn, Hp, Nat.min_l by lia.
    rewrite !offs_mid. rewrite mutate_unsafe_tail by (cbn; rewrite ?offs_length; lia). cbn [rbind]. f_equal. f_equal.
    change (offs 0 A) with (offs 0 A). cbn [fmap list_fmap]. rewrite Hl'. f_equal; [lia|].
    change (list_fmap _ _ (fun x => x + 1) ?z) with (fmap (fun x => x + 1) z).
    rewrite offs_shift. f_equal. lia.
  Qed.

  Lemma decrement_rep s A l B k :
    flat_rep s (A ++ l :: B) -> forall l', length l' + k = length l ->
    p_decrement s (length A) (p_num s) k = Ok (offs 0 (A ++ l' :: B)).
  Proof.
    intros Hr l' Hl'. pose proof (num_rep _ _ Hr) as Hn. rewrite app_length in Hn. cbn in Hn.
    destruct Hr as [Hp _]. unfold p_decrement. rewrite Nat.min_id, Hn, Hp, Nat.min_l by lia.
    rewrite !offs_mid. rewrite mutate_unsafe_tail by (cbn; rewrite ?offs_length; lia). cbn [rbind]. f_equal. f_equal.
    cbn [fmap list_fmap]. f_equal; [lia|].
    change (list_fmap _ _ (fun x => x - k) ?z) with (fmap (fun x => x - k) z).
    rewrite <- Hl', Nat.add_assoc. apply offs_unshift.
  Qed.

  Lemma insert_mid A l l' B : <[length A:=l']> (A ++ l :: B) = A ++ l' :: B.
  Proof. rewrite insert_app_r_alt by lia. by rewrite Nat.sub_diag. Qed.

  (** *** The operations *)

  Lemma add_slot_rep s ls : flat_rep s ls -> exists s', p_add_slot s = Ok s' /\ flat_rep s' (ls ++ [[]]).
  Proof.
    intros [Hp Hd]. unfold p_add_slot.
    assert (push_back gtb (p_parts s) (length (p_data s)) = Ok (offs 0 (ls ++ [[]]))) as ->.
    { unfold push_back. rewrite Hp, Hd, offs_app. cbn [offs length Nat.add]. rewrite Nat.add_0_r.
      destruct ls as [|l ls]; [done|].
      rewrite offs_last by done. unfold gtb. rewrite (proj2 (Nat.ltb_ge _ _)) by lia. done. }
    cbn [rbind]. eexists. split; [done|]. split; [done|]. cbn.
    rewrite Hd, join_app. cbn. by rewrite app_nil_r.
  Qed.

  Lemma insert_slot_rep s ls pos :
    flat_rep s ls -> exists s', p_insert_slot s pos = Ok s' /\ flat_rep s' (take pos ls ++ [] :: drop pos ls).
  Proof.
    intros Hr. unfold p_insert_slot. rewrite (num_rep _ _ Hr). case_decide as Hpos.
    - destruct (lookup_in_range ls pos Hpos) as [l Hl].
      apply split_lookup in Hl as (A & B & -> & <-).
      destruct Hr as [Hp Hd]. rewrite take_app, drop_app. rewrite Hp.
      assert ((if decide (length A = 0) then Ok 0 else rget (offs 0 (A ++ l :: B)) (length A - 1)) =
              Ok (total A)) as ->.
      { rewrite <- (offs_before A (l :: B)). repeat case_decide; try done; lia. }
      cbn [rbind].
      assert (insert gtb (offs 0 (A ++ l :: B)) (length A) (total A) = Ok (offs 0 (A ++ [] :: l :: B))) as ->.
      { unfold insert. rewrite offs_length, app_length. cbn [length].
        rewrite decide_True by lia. rewrite decide_False by lia.
        rewrite (rget_some _ _ _ (offs_at A l B)). cbn [rbind].
        unfold gtb at 1. rewrite (proj2 (Nat.ltb_ge _ _)) by lia. cbn [rbind].
        assert ((if decide (length A = 0) then Ok false
                 else rbind (rget (offs 0 (A ++ l :: B)) (length A - 1)) (fun x => Ok (gtb x (total A)))) = Ok false)
          as ->.
        { pose proof (offs_before A (l :: B)) as Hb. destruct (decide (length A = 0)); [done|].
          rewrite decide_True in Hb by lia. rewrite Hb. cbn. unfold gtb. f_equal. apply Nat.ltb_irrefl. }
        cbn [rbind]. rewrite !offs_mid.
        rewrite take_app_alt, drop_app_alt by (by rewrite offs_length).
        cbn [length offs]. by rewrite Nat.add_0_r. }
      cbn [rbind]. eexists. split; [done|]. split; [done|]. cbn. rewrite Hd. by rewrite !join_mid.
    - destruct (add_slot_rep s ls Hr) as (s' & -> & Hr'). exists s'. split; [done|].
      rewrite take_ge, drop_ge by lia. done.
  Qed.

  Lemma erase_slot_rep s ls n :
    flat_rep s ls -> exists s', p_erase_slot s n = Ok s' /\ flat_rep s' (take n ls ++ drop (S n) ls).
  Proof.
    intros Hr. unfold p_erase_slot. rewrite (num_rep _ _ Hr). case_decide as Hn.
    - destruct (lookup_in_range ls n Hn) as [l Hl].
      apply split_lookup in Hl as (A & B & -> & <-).
      destruct Hr as [Hp Hd]. rewrite take_app.
      replace (drop (S (length A)) (A ++ l :: B)) with B.
      2:{ change (A ++ l :: B) with (A ++ [l] ++ B). rewrite app_assoc.
          rewrite drop_app_alt; [done|]. rewrite app_length. cbn. lia. }
      rewrite Hp, offs_before. cbn [rbind]. rewrite (rget_some _ _ _ (offs_at A l B)). cbn [rbind].
      assert ((if decide (0 < total A + length l) then vec_erase (p_data s) (total A) (total A + length l)
               else Ok (p_data s)) = Ok (mjoin (A ++ B))) as ->.
      { rewrite Hd, join_mid, join_app. case_decide as H.
        - rewrite vec_erase_ok by (rewrite ?app_length; lia).
          rewrite take_app. rewrite <- drop_drop, !drop_app. done.
        - assert (length l = 0) as H0 by lia. by apply nil_length_inv in H0 as ->. }
      cbn [rbind].
      assert (erase (offs 0 (A ++ l :: B)) (length A) = Ok (offs 0 A ++ offs (total A + length l) B)) as ->.
      { unfold erase. rewrite offs_length, app_length, decide_True by (cbn; lia).
        rewrite offs_mid. rewrite take_app_alt by (by rewrite offs_length).
        rewrite <- drop_drop, drop_app_alt by (by rewrite offs_length).
        done. }
      cbn [rbind].
      rewrite mutate_unsafe_tail by (rewrite ?app_length, ?offs_length; lia). cbn [rbind].
      eexists. split; [done|]. split; [|done]. cbn. rewrite offs_app. f_equal. cbn [Nat.add].
      case_decide as H.
      + replace (total A + length l - total A) with (length l) by lia. apply offs_unshift.
      + assert (length l = 0) as -> by lia. rewrite Nat.add_0_r.
        pose proof (offs_unshift (total A) 0 B) as Hu. by rewrite Nat.add_0_r in Hu.
    - exists s. split; [done|]. rewrite remove_end by lia. done.
  Qed.

  Lemma swap_loop_spec (P X M Y R : list T) :
    length X = length Y ->
    p_swap_loop (P ++ X ++ M ++ Y ++ R) (length P) (length P + length X + length M) (length X) =
      Ok (P ++ Y ++ M ++ X ++ R).
  Proof.
    revert P M Y. induction X as [|x X IH]; intros P M Y HXY; cbn [length p_swap_loop].
    { by destruct Y. }
    destruct Y as [|y Y]; [done|]. cbn [length] in HXY.
    assert (rswap (P ++ (x :: X) ++ M ++ (y :: Y) ++ R) (length P) (length P + S (length X) + length M) =
            Ok ((P ++ [y]) ++ X ++ (M ++ [x]) ++ Y ++ R)) as ->.
    { unfold rswap. cbn [app]. rewrite list_lookup_middle by done.
      assert (P ++ x :: X ++ M ++ y :: Y ++ R = (P ++ x :: X ++ M) ++ y :: Y ++ R) as E
        by (rewrite <- app_assoc; cbn; by rewrite <- app_assoc).
      rewrite E. rewrite list_lookup_middle by (rewrite app_length; cbn; rewrite app_length; lia).
      f_equal. rewrite insert_app_r_alt by (rewrite app_length; cbn; rewrite app_length; lia).
      replace (length P + S (length X) + length M - length (P ++ x :: X ++ M)) with 0
        by (rewrite app_length; cbn; rewrite app_length; lia).
      cbn [base.insert list_insert]. rewrite <- !app_assoc. cbn [app].
      rewrite insert_app_r_alt by lia. rewrite Nat.sub_diag. cbn [base.insert list_insert].
      by rewrite <- app_assoc. }
    cbn [rbind]. specialize (IH (P ++ [y]) (M ++ [x]) Y ltac:(lia)).
    rewrite !app_length in IH. cbn [length] in IH.
    replace (length P + S (length X) + length M + 1) with (length P + 1 + length X + (length M + 1)) by lia.
    rewrite IH. by rewrite <- !app_assoc.
  Qed.

  (** Exchanging the contents of two partitions, in the flat data. *)
  Lemma swap_data (A X M Y C : list T) :
    exists d, p_swap_loop (A ++ X ++ M ++ Y ++ C) (length A) (length A + length X + length M)
                (Nat.min (length X) (length Y)) = Ok d /\
      (if decide (length Y < length X) then
         vec_rotate d (length A + length Y) (length A + length X) (length A + length X + length M + length Y)
       else if decide (length X < length Y) then
         vec_rotate d (length A + length X) (length A + length X + length M + length X)
           (length A + length X + length M + length Y)
       else Ok d) = Ok (A ++ Y ++ M ++ X ++ C).
  Proof.
    destruct (decide (length Y < length X)) as [H|H].
    - pose proof (take_drop (length Y) X) as HX. set (X1 := take (length Y) X) in *.
      set (X2 := drop (length Y) X) in *.
      assert (length X1 = length Y) as H1 by (unfold X1; rewrite take_length; lia).
      assert (length X2 = length X - length Y) as H2 by (unfold X2; by rewrite drop_length).
      exists (A ++ Y ++ (X2 ++ M) ++ X1 ++ C). split.
      + pose proof (swap_loop_spec A X1 (X2 ++ M) Y C H1) as HL.
        rewrite app_length in HL. rewrite Nat.min_r by lia. rewrite <- H1.
        replace (A ++ X ++ M ++ Y ++ C) with (A ++ X1 ++ (X2 ++ M) ++ Y ++ C)
          by (rewrite <- HX, <- !app_assoc; done).
        replace (length A + length X + length M) with (length A + length X1 + (length X2 + length M)) by lia.
        done.
      + unfold vec_rotate. rewrite decide_True by (rewrite !app_length; lia).
        f_equal.
        replace (A ++ Y ++ (X2 ++ M) ++ X1 ++ C) with ((A ++ Y) ++ X2 ++ (M ++ X1) ++ C)
          by (rewrite <- !app_assoc; done).
        rewrite (take_app_alt (A ++ Y)) by (rewrite app_length; lia).
        rewrite (drop_app_alt (A ++ Y) _ (length A + length Y)) by (rewrite app_length; lia).
        rewrite (take_app_alt X2) by lia.
        replace ((A ++ Y) ++ X2 ++ (M ++ X1) ++ C) with (((A ++ Y) ++ X2) ++ (M ++ X1) ++ C)
          by (rewrite <- !app_assoc; done).
        rewrite (drop_app_alt ((A ++ Y) ++ X2) _ (length A + length X)) by (rewrite !app_length; lia).
        rewrite (take_app_alt (M ++ X1)) by (rewrite app_length; lia).
        replace (((A ++ Y) ++ X2) ++ (M ++ X1) ++ C) with ((((A ++ Y) ++ X2) ++ (M ++ X1)) ++ C)
          by (rewrite <- !app_assoc; done).
        rewrite drop_app_alt by (rewrite !app_length; lia).
        rewrite <- HX. by rewrite <- !app_assoc.
    - destruct (decide (length X < length Y)) as [H'|H'].
      + pose proof (take_drop (length X) Y) as HY. set (Y1 := take (length X) Y) in *.
        set (Y2 := drop (length X) Y) in *.
        assert (length Y1 = length X) as H1 by (unfold Y1; rewrite take_length; lia).
        assert (length Y2 = length Y - length X) as H2 by (unfold Y2; by rewrite drop_length).
        exists (A ++ Y1 ++ M ++ X ++ Y2 ++ C). split.
        * pose proof (swap_loop_spec A X M Y1 (Y2 ++ C) (eq_sym H1)) as HL.
          rewrite Nat.min_l by lia.
          replace (A ++ X ++ M ++ Y ++ C) with (A ++ X ++ M ++ Y1 ++ Y2 ++ C)
            by (rewrite <- HY, <- !app_assoc; done). done.
        * unfold vec_rotate. rewrite decide_True by (rewrite !app_length; lia).
          f_equal.
          replace (A ++ Y1 ++ M ++ X ++ Y2 ++ C) with ((A ++ Y1) ++ (M ++ X) ++ Y2 ++ C)
            by (rewrite <- !app_assoc; done).
          rewrite (take_app_alt (A ++ Y1)) by (rewrite app_length; lia).
          rewrite (drop_app_alt (A ++ Y1) _ (length A + length X)) by (rewrite app_length; lia).
          rewrite (take_app_alt (M ++ X)) by (rewrite app_length; lia).
          replace ((A ++ Y1) ++ (M ++ X) ++ Y2 ++ C) with (((A ++ Y1) ++ M ++ X) ++ Y2 ++ C)
            by (rewrite <- !app_assoc; done).
          rewrite (drop_app_alt ((A ++ Y1) ++ M ++ X) _ (length A + length X + length M + length X))
            by (rewrite !app_length; lia).
          rewrite (take_app_alt Y2) by lia.
          replace (((A ++ Y1) ++ M ++ X) ++ Y2 ++ C) with ((((A ++ Y1) ++ M ++ X) ++ Y2) ++ C)
            by (rewrite <- !app_assoc; done).
          rewrite drop_app_alt by (rewrite !app_length; lia).
          rewrite <- HY. by rewrite <- !app_assoc.
      + assert (length X = length Y) as HXY by lia. exists (A ++ Y ++ M ++ X ++ C). split; [|done].
        rewrite Nat.min_l by lia. by apply swap_loop_spec.
  Qed.
End flat.
