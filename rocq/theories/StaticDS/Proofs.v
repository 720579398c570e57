(** Lemmas for C05-C07 and C29: to_array and the static containers. *)
From stdpp Require Import list.
From Verif.Base Require Import Outcome Order ListLemmas.
From Verif.Algo Require Import Model Spec Proofs.
From Verif.StaticDS Require Import Model Spec.

(** ** to_array *)
Section array.
  Context {I T : Type} (fn : I -> T).

  Lemma to_elements_default d l i k :
    exists a, to_elements fn (Some d) l i k = Ok a /\ length a = k /\
      forall j, j < k -> a !! j = Some (fn (default d (l !! (i + j)))).
  Proof.
    revert i. induction k as [|k IH]; intros i; cbn [to_elements].
    { exists []. split; [done|]. split; [done|]. lia. }
    assert (to_element fn (Some d) l i = Ok (fn (default d (l !! i)))) as ->.
    { unfold to_element. case_decide as Hi.
      - destruct (rget_lt l i Hi) as (x & -> & ->). done.
      - rewrite (proj2 (lookup_ge_None l i)) by lia. done. }
    destruct (IH (i + 1)) as (a & -> & Hlen & Ha). cbn [rbind].
    eexists. split; [done|]. split; [cbn; lia|].
    intros [|j] Hj; cbn.
    - by rewrite Nat.add_0_r.
    - rewrite Ha by lia. do 4 f_equal. lia.
  Qed.

  Lemma to_array_default d n l :
    length l <= n ->
    to_array fn (Some d) n l = Ok (fmap fn l ++ replicate (n - length l) (fn d)).
  Proof.
    intros Hl. unfold to_array. rewrite decide_False by lia.
    destruct (to_elements_default d l 0 n) as (a & -> & Hlen & Ha). f_equal.
    apply list_eq. intros j. destruct (decide (j < n)) as [Hj|Hj].
    - rewrite Ha by done. cbn [Nat.add].
      destruct (decide (j < length l)) as [Hjl|Hjl].
      + rewrite lookup_app_l by (by rewrite fmap_length).
        rewrite list_lookup_fmap. destruct (lookup_in_range l j Hjl) as [x ->]. done.
      + rewrite lookup_app_r by (rewrite fmap_length; lia).
        rewrite fmap_length, lookup_replicate_2 by lia.
        rewrite (proj2 (lookup_ge_None l j)) by lia. done.
    - rewrite !(proj2 (lookup_ge_None _ _)); [done| |lia].
      rewrite app_length, fmap_length, replicate_length. lia.
  Qed.

  Lemma to_elements_full l i k :
    i + k = length l ->
    to_elements fn None l i k = Ok (fmap fn (drop i l)).
  Proof.
    revert i. induction k as [|k IH]; intros i Hk; cbn [to_elements].
    { rewrite drop_ge by lia. done. }
    unfold to_element. rewrite decide_False by lia.
    destruct (rget_lt l i) as (x & -> & Hx); [lia|]. cbn [rbind].
    rewrite (IH (i + 1)) by lia. cbn [rbind].
    rewrite (drop_S l x i) by done. rewrite Nat.add_1_r. done.
  Qed.

  Lemma to_array_full l :
    to_array fn None (length l) l = Ok (fmap fn l).
  Proof.
    unfold to_array. rewrite decide_False by lia.
    rewrite to_elements_full by lia. by rewrite drop_0.
  Qed.

  Lemma to_elements_short l i k :
    i <= length l -> length l < i + k -> to_elements fn None l i k = UB.
  Proof.
    revert i. induction k as [|k IH]; intros i Hi Hk; [lia|]. cbn [to_elements].
    unfold to_element. rewrite decide_False by lia.
    destruct (decide (i = length l)) as [->|].
    - unfold rget. rewrite (proj2 (lookup_ge_None l (length l))) by lia. done.
    - destruct (rget_lt l i) as (x & -> & Hx); [lia|]. cbn [rbind].
      rewrite IH by lia. done.
  Qed.

  Lemma to_array_short n l :
    length l < n -> to_array fn None n l = UB.
  Proof.
    intros Hn. unfold to_array. rewrite decide_False by lia.
    apply to_elements_short; lia.
  Qed.

  Lemma to_array_long dflt n l :
    n < length l -> to_array fn dflt n l = Throw OutOfRange.
  Proof. intros Hn. unfold to_array. by rewrite decide_True. Qed.
End array.

Lemma fmap_id_list {T} (l : list T) : fmap (fun x => x) l = l.
Proof. induction l as [|x l IH]; [done|]. cbn. f_equal. exact IH. Qed.

(** The array a container is initialised with: the list, then padding. *)
Lemma init_array {T} (dflt : option T) n (l : list T) :
  length l <= n -> (dflt = None -> length l = n) ->
  exists pad, to_array (fun x => x) dflt n l = Ok (l ++ pad) /\ length pad = n - length l.
Proof.
  intros Hl Hd. destruct dflt as [d|].
  - exists (replicate (n - length l) d).
    rewrite to_array_default by done. rewrite fmap_id_list.
    split; [done|]. by rewrite replicate_length.
  - exists []. rewrite <- (Hd eq_refl), to_array_full, fmap_id_list, app_nil_r.
    split; [done|]. cbn. lia.
Qed.

(** ** static_queue *)
Section queue.
  Context {T : Type}.

  (** [l] is the contents of [q], oldest first. *)
  Definition queue_rep (n : nat) (q : queue T) (l : list T) : Prop :=
    length (q_arr q) = n /\ length l <= n /\
    ((l = [] /\ q_front q = n /\ q_back q = n) \/
     (0 < length l /\ q_front q < n /\ q_back q < n /\
      q_back q = (q_front q + length l - 1) `mod` n /\
      forall i, i < length l -> q_arr q !! ((q_front q + i) `mod` n) = l !! i)).

  Lemma mod_step a b n : a < n -> b <= n -> (a + b) `mod` n = if decide (a + b < n) then a + b else a + b - n.
  Proof.
    intros Ha Hb. case_decide as H.
    - by apply Nat.mod_small.
    - symmetry. apply (Nat.mod_unique _ _ 1); lia.
  Qed.

  Lemma queue_size_rep n q l : queue_rep n q l -> queue_size n q = length l.
  Proof.
    intros (Hlen & Hle & [(-> & Hf & Hb)|(Hpos & Hf & Hb & Hbe & _)]);
      unfold queue_size, queue_empty.
    - by rewrite bool_decide_true.
    - rewrite bool_decide_false by lia.
      assert (q_front q + length l - 1 = q_front q + (length l - 1)) as E by lia.
      rewrite E, mod_step in Hbe by lia.
      repeat case_decide; lia.
  Qed.

  Lemma queue_empty_rep n q l : queue_rep n q l -> queue_empty n q = bool_decide (l = []).
  Proof.
    intros (Hlen & Hle & [(-> & Hf & Hb)|(Hpos & Hf & Hb & Hbe & _)]); unfold queue_empty.
    - by rewrite !bool_decide_true.
    - rewrite !bool_decide_false; [done| |lia]. destruct l; [cbn in *; lia|done].
  Qed.

  Lemma queue_push_rep n q l v :
    queue_rep n q l ->
    (length l < n -> exists q', queue_push n q v = Ok q' /\ queue_rep n q' (l ++ [v])) /\
    (length l = n -> queue_push n q v = Throw LogicError).
  Proof.
    intros Hrep. pose proof (queue_size_rep _ _ _ Hrep) as Hsz.
    destruct Hrep as (Hlen & Hle & Hcase). unfold queue_push. rewrite Hsz. split.
    - intros Hlt. rewrite decide_True by lia. rewrite decide_False by lia.
      destruct Hcase as [(-> & Hf & Hb)|(Hpos & Hf & Hb & Hbe & Harr)].
      + rewrite !(decide_True _ _ Hf). cbn [length] in *.
        unfold rset. destruct (lookup_in_range (q_arr q) 0) as [x Hx]; [lia|]. rewrite Hx.
        cbn [rbind]. eexists. split; [done|].
        split; [cbn; by rewrite insert_length|]. split; [cbn; lia|]. right. cbn.
        split; [lia|]. split; [lia|]. split; [lia|]. split; [by rewrite Nat.mod_small by lia|].
        intros i Hi. assert (i = 0) as -> by lia. rewrite Nat.mod_small by lia.
        by rewrite list_lookup_insert by lia.
      + rewrite !decide_False by lia.
        set (b := (q_back q + 1) `mod` n).
        assert (b < n) as Hbn by (apply Nat.mod_upper_bound; lia).
        assert (b = (q_front q + length l) `mod` n) as Hbf.
        { unfold b. rewrite Hbe.
          replace (q_front q + length l - 1) with (q_front q + (length l - 1)) by lia.
          rewrite !mod_step by (repeat case_decide; lia).
          repeat case_decide; lia. }
        destruct (lookup_in_range (q_arr q) b) as [x Hx]; [lia|].
        unfold rset. rewrite Hx. cbn [rbind]. eexists. split; [done|].
        split; [cbn; by rewrite insert_length|].
        split; [rewrite app_length; cbn; lia|]. right. cbn [q_arr q_front q_back].
        rewrite app_length. cbn [length].
        split; [lia|]. split; [lia|]. split; [lia|]. split; [rewrite Hbf; f_equal; lia|].
        intros i Hi. destruct (decide (i = length l)) as [->|Hne].
        * rewrite <- Hbf, list_lookup_insert by lia.
          rewrite lookup_app_r by lia. by rewrite Nat.sub_diag.
        * rewrite lookup_app_l by lia. rewrite <- Harr by lia.
          rewrite list_lookup_insert_ne; [done|].
          rewrite Hbf, !mod_step by lia. repeat case_decide; lia.
    - intros Heq. rewrite Heq. destruct (decide (0 < n)); [|done]. by rewrite decide_True.
  Qed.

  Lemma queue_pop_rep n q l : queue_rep n q l -> queue_rep n (queue_pop n q) (tail l).
  Proof.
    intros (Hlen & Hle & Hcase). unfold queue_pop.
    destruct Hcase as [(-> & Hf & Hb)|(Hpos & Hf & Hb & Hbe & Harr)].
    - rewrite decide_True by lia. cbn. split; [done|]. split; [cbn; lia|]. by left.
    - destruct l as [|x l]; [cbn in Hpos; lia|]. cbn [tail length] in *.
      replace (q_front q + S (length l) - 1) with (q_front q + length l) in Hbe by lia.
      assert (q_back q = if decide (q_front q + length l < n) then q_front q + length l
                         else q_front q + length l - n) as Hbe'.
      { rewrite Hbe. apply mod_step; lia. }
      destruct l as [|y l]; cbn [length] in *.
      + rewrite decide_True by (repeat case_decide; lia). split; [done|]. split; [cbn; lia|]. by left.
      + rewrite decide_False by (repeat case_decide; lia).
        split; [done|]. split; [cbn; lia|]. right. cbn [q_arr q_front q_back length].
        split; [lia|]. split; [apply Nat.mod_upper_bound; lia|]. split; [done|]. split.
        * rewrite Hbe.
          replace ((q_front q + 1) `mod` n + S (length l) - 1)
            with ((q_front q + 1) `mod` n + length l) by lia.
          rewrite Nat.add_mod_idemp_l by lia. f_equal. lia.
        * intros i Hi. rewrite Nat.add_mod_idemp_l by lia.
          replace (q_front q + 1 + i) with (q_front q + S i) by lia.
          by rewrite Harr by lia.
  Qed.

  Lemma queue_front_rep n q l :
    queue_rep n q l -> queue_front q = match head l with Some v => Ok v | None => UB end.
  Proof.
    intros (Hlen & Hle & [(-> & Hf & Hb)|(Hpos & Hf & Hb & Hbe & Harr)]); unfold queue_front, rget.
    - rewrite (proj2 (lookup_ge_None _ _)) by lia. done.
    - specialize (Harr 0 Hpos). rewrite Nat.add_0_r, Nat.mod_small in Harr by done.
      rewrite Harr. destruct l; [cbn in Hpos; lia|done].
  Qed.

  Lemma queue_back_rep n q l :
    queue_rep n q l -> queue_back q = match last l with Some v => Ok v | None => UB end.
  Proof.
    intros (Hlen & Hle & [(-> & Hf & Hb)|(Hpos & Hf & Hb & Hbe & Harr)]); unfold queue_back, rget.
    - rewrite (proj2 (lookup_ge_None _ _)) by lia. done.
    - specialize (Harr (length l - 1)). rewrite Hbe.
      replace (q_front q + length l - 1) with (q_front q + (length l - 1)) by lia.
      rewrite Harr by lia. rewrite last_lookup.
      replace (Nat.pred (length l)) with (length l - 1) by lia.
      destruct (l !! (length l - 1)) eqn:E; [done|]. apply lookup_ge_None in E. lia.
  Qed.

  Lemma queue_make_rep dflt n l :
    length l <= n -> (dflt = None -> length l = n) ->
    exists q, queue_make dflt n l = Ok q /\ queue_rep n q l.
  Proof.
    intros Hl Hd. unfold queue_make. destruct (init_array dflt n l Hl Hd) as (pad & -> & Hpad).
    cbn [rbind]. eexists. split; [done|]. split; [cbn; rewrite app_length; lia|].
    split; [done|]. cbn [q_front q_back q_arr]. case_decide as H0.
    - left. split; [by apply nil_length_inv|done].
    - right. split; [lia|]. split; [lia|]. split; [lia|]. split; [rewrite Nat.mod_small; lia|].
      intros i Hi. rewrite Nat.mod_small by lia. by rewrite lookup_app_l.
  Qed.

  Lemma queue_history n q l cs :
    queue_rep n q l -> history (queue_call n) q cs = history (fifo_call n) l cs.
  Proof.
    revert q l. induction cs as [|c cs IH]; intros q l Hrep; [done|]. cbn [history].
    destruct c as [v| | | | |]; cbn [queue_call fifo_call].
    - destruct (queue_push_rep n q l v Hrep) as [Hok Hfull]. pose proof Hrep as (_ & Hle & _).
      case_decide as Hlt.
      + destruct (Hok Hlt) as (q' & -> & Hrep'). cbn [upd]. f_equal. by apply IH.
      + rewrite Hfull by lia. cbn [upd]. f_equal. by apply IH.
    - f_equal. apply IH. by apply queue_pop_rep.
    - rewrite (queue_front_rep n q l Hrep). destruct (head l); [|done]. cbn [val]. f_equal. by apply IH.
    - rewrite (queue_back_rep n q l Hrep). destruct (last l); [|done]. cbn [val]. f_equal. by apply IH.
    - rewrite (queue_size_rep n q l Hrep). f_equal. by apply IH.
    - rewrite (queue_empty_rep n q l Hrep). f_equal. by apply IH.
  Qed.

  Lemma queue_eq_loop_rep eqb n (a b : list T) f g (l m : list T) :
    0 < n -> length l = length m ->
    (l <> [] -> f < n) -> (m <> [] -> g < n) ->
    (forall i, i < length l -> a !! ((f + i) `mod` n) = l !! i) ->
    (forall i, i < length m -> b !! ((g + i) `mod` n) = m !! i) ->
    queue_eq_loop eqb n a b f g (length l) = Ok (ranges_equal eqb l m).
  Proof.
    intros Hn. revert f g m. induction l as [|x l IH]; intros f g m Hlen Hf Hg Ha Hb.
    { destruct m; [done|cbn in Hlen; lia]. }
    destruct m as [|y m]; [cbn in Hlen; lia|]. cbn [length queue_eq_loop ranges_equal] in *.
    assert (a !! f = Some x) as Hx.
    { specialize (Ha 0). rewrite Nat.add_0_r, Nat.mod_small in Ha by (by apply Hf). apply Ha. lia. }
    assert (b !! g = Some y) as Hy.
    { specialize (Hb 0). rewrite Nat.add_0_r, Nat.mod_small in Hb by (by apply Hg). apply Hb. lia. }
    unfold rget. rewrite Hx, Hy. cbn [rbind]. destruct (eqb x y); cbn [negb andb]; [|done].
    apply IH; [lia| | | |].
    - intros _. apply Nat.mod_upper_bound. lia.
    - intros _. apply Nat.mod_upper_bound. lia.
    - intros i Hi. rewrite Nat.add_mod_idemp_l by lia.
      replace (f + 1 + i) with (f + S i) by lia. rewrite Ha by lia. done.
    - intros i Hi. rewrite Nat.add_mod_idemp_l by lia.
      replace (g + 1 + i) with (g + S i) by lia. rewrite Hb by lia. done.
  Qed.

  Lemma ranges_equal_length (eqb : T -> T -> bool) l m :
    length l <> length m -> ranges_equal eqb l m = false.
  Proof.
    revert m. induction l as [|x l IH]; intros [|y m] H; cbn in *; try done; try lia.
    rewrite IH by lia. by rewrite andb_false_r.
  Qed.

  Lemma ranges_equal_spec (eqb : T -> T -> bool) l m :
    (forall x y, eqb x y = true <-> x = y) -> ranges_equal eqb l m = true <-> l = m.
  Proof.
    intros He. revert m. induction l as [|x l IH]; intros [|y m]; cbn; try done.
    rewrite andb_true_iff, He, IH. split; [intros [-> ->]; done|intros [= -> ->]; done].
  Qed.

  Lemma queue_eq_rep eqb n p q l m :
    queue_rep n p l -> queue_rep n q m ->
    queue_eq eqb n p q = Ok (ranges_equal eqb l m).
  Proof.
    intros Hp Hq. unfold queue_eq.
    rewrite (queue_size_rep n p l Hp), (queue_size_rep n q m Hq).
    destruct Hp as (Hpa & Hpl & Hpc), Hq as (Hqa & Hql & Hqc).
    destruct (decide (0 < n)) as [Hn|Hn].
    - case_decide as Hs.
      + destruct Hpc as [(-> & Hpf & _)|(Hpos & Hpf & _ & _ & Hp)];
          destruct Hqc as [(-> & Hqf & _)|(Hpos' & Hqf & _ & _ & Hq)]; cbn in *; try done; try lia.
        by apply queue_eq_loop_rep.
      + by rewrite ranges_equal_length.
    - destruct l; [|cbn in *; lia]. destruct m; [|cbn in *; lia]. done.
  Qed.

  (** Every state a client can reach represents a list (used for [operator==]). *)
  Lemma queue_reach n q l cs :
    queue_rep n q l ->
    forall q', fold_left (fun o c => o ≫= fun s => (queue_call n s c).1) cs (Some q) = Some q' ->
    exists l', fold_left (fun o c => o ≫= fun s => (fifo_call n s c).1) cs (Some l) = Some l' /\
      queue_rep n q' l'.
  Proof.
    revert q l. induction cs as [|c cs IH]; intros q l Hrep q' Hq'; cbn [fold_left] in *.
    { injection Hq' as <-. eauto. }
    cbn [mbind option_bind] in *.
    destruct c as [v| | | | |]; cbn [queue_call fifo_call] in *.
    - destruct (queue_push_rep n q l v Hrep) as [Hok Hfull]. pose proof Hrep as (_ & Hle & _).
      case_decide as Hlt.
      + destruct (Hok Hlt) as (q1 & E & Hrep'). rewrite E in Hq'. cbn in *. eauto.
      + rewrite Hfull in Hq' by lia. cbn in *. eauto.
    - cbn in *. apply (IH _ _ (queue_pop_rep _ _ _ Hrep)). done.
    - rewrite (queue_front_rep n q l Hrep) in Hq'. destruct (head l); cbn in *; [eauto|].
      exfalso. clear -Hq'. induction cs; done.
    - rewrite (queue_back_rep n q l Hrep) in Hq'. destruct (last l); cbn in *; [eauto|].
      exfalso. clear -Hq'. induction cs; done.
    - cbn in *. eauto.
    - cbn in *. eauto.
  Qed.
End queue.

(** ** static_stack *)
Section stack.
  Context {T : Type}.

  (** [l] is the contents of [s], newest first. *)
  Definition stack_rep (n : nat) (s : stack T) (l : list T) : Prop :=
    length (s_arr s) = n /\ s_end s = length l /\ take (s_end s) (s_arr s) = reverse l.

  Lemma stack_rep_le n s l : stack_rep n s l -> length l <= n.
  Proof.
    intros (Hlen & He & Ht). apply (f_equal length) in Ht.
    rewrite take_length, reverse_length in Ht. lia.
  Qed.

  Lemma stack_rep_lookup n s x l : stack_rep n s (x :: l) -> s_arr s !! (length l) = Some x.
  Proof.
    intros (Hlen & He & Ht).
    rewrite <- (lookup_take _ (s_end s)) by (rewrite He; cbn; lia).
    rewrite Ht, reverse_cons, lookup_app_r by (rewrite reverse_length; lia).
    by rewrite reverse_length, Nat.sub_diag.
  Qed.

  Lemma stack_make_rep dflt n l :
    length l <= n -> (dflt = None -> length l = n) ->
    exists s, stack_make dflt n l = Ok s /\ stack_rep n s (reverse l).
  Proof.
    intros Hl Hd. unfold stack_make. destruct (init_array dflt n l Hl Hd) as (pad & -> & Hpad).
    cbn [rbind]. eexists. split; [done|]. split; [cbn; rewrite app_length; lia|].
    cbn. split; [by rewrite reverse_length|]. by rewrite take_app, reverse_involutive.
  Qed.

  Lemma stack_push_rep n s l v :
    stack_rep n s l ->
    (length l < n -> exists s', stack_push n s v = Ok s' /\ stack_rep n s' (v :: l)) /\
    (length l = n -> stack_push n s v = Throw LogicError).
  Proof.
    intros (Hlen & He & Ht). unfold stack_push. split.
    - intros Hlt. rewrite decide_False by lia. unfold rset.
      destruct (lookup_in_range (s_arr s) (s_end s)) as [x Hx]; [lia|]. rewrite Hx. cbn [rbind].
      eexists. split; [done|]. split; [cbn; by rewrite insert_length|].
      cbn [s_arr s_end length]. split; [lia|].
      rewrite Nat.add_1_r, (take_S_r _ _ v) by (rewrite list_lookup_insert; [done|lia]).
      rewrite take_insert by lia. by rewrite Ht, reverse_cons.
    - intros Heq. by rewrite decide_True by lia.
  Qed.

  Lemma stack_pop_rep n s x l :
    stack_rep n s (x :: l) -> exists s', stack_pop s = Ok s' /\ stack_rep n s' l.
  Proof.
    intros Hrep. pose proof Hrep as (Hlen & He & Ht). unfold stack_pop. cbn in He.
    rewrite decide_False by lia. eexists. split; [done|]. split; [done|].
    cbn [s_arr s_end]. split; [lia|]. rewrite He in *. replace (S (length l) - 1) with (length l) by lia.
    rewrite reverse_cons in Ht.
    apply (f_equal (take (length l))) in Ht.
    rewrite take_take, Nat.min_l in Ht by lia.
    rewrite Ht. rewrite <- (reverse_length l). by rewrite take_app.
  Qed.

  Lemma stack_history n s l cs :
    stack_rep n s l -> history (stack_call n) s cs = history (lifo_call n) l cs.
  Proof.
    revert s l. induction cs as [|c cs IH]; intros s l Hrep; [done|]. cbn [history].
    assert (stack_top s = match l with v :: _ => Ok v | [] => UB end) as Htop.
    { unfold stack_top. destruct l as [|v l].
      - destruct Hrep as (_ & He & _). by rewrite decide_True.
      - pose proof (stack_rep_lookup _ _ _ _ Hrep) as Hv. destruct Hrep as (_ & He & _). cbn in He.
        rewrite decide_False by lia. apply rget_ok. by rewrite He, Nat.sub_succ, Nat.sub_0_r. }
    destruct c as [v| | | | |]; cbn [stack_call lifo_call].
    - destruct (stack_push_rep n s l v Hrep) as [Hok Hfull]. pose proof (stack_rep_le _ _ _ Hrep).
      case_decide as Hlt.
      + destruct (Hok Hlt) as (s' & -> & Hrep'). cbn [upd]. f_equal. by apply IH.
      + rewrite Hfull by lia. cbn [upd]. f_equal. by apply IH.
    - destruct l as [|x l].
      + unfold stack_pop. destruct Hrep as (_ & He & _). by rewrite decide_True.
      + destruct (stack_pop_rep _ _ _ _ Hrep) as (s' & -> & Hrep'). cbn [upd]. f_equal. by apply IH.
    - rewrite Htop. destruct l; [done|]. cbn [val]. f_equal. by apply IH.
    - rewrite Htop. destruct l; [done|]. cbn [val]. f_equal. by apply IH.
    - unfold stack_size. pose proof Hrep as (_ & -> & _). f_equal. by apply IH.
    - unfold stack_empty. pose proof Hrep as (_ & He & _).
      rewrite (bool_decide_ext (s_end s = 0) (l = [])).
      + f_equal. by apply IH.
      + rewrite He. destruct l; cbn; split; done.
  Qed.

  Lemma stack_eq_rep eqb n s t l m :
    stack_rep n s l -> stack_rep n t m ->
    stack_eq eqb s t = ranges_equal eqb (reverse l) (reverse m).
  Proof.
    intros (_ & Hs & Hl) (_ & Ht & Hm). unfold stack_eq. rewrite Hl, Hm, Hs, Ht.
    case_bool_decide; [done|]. rewrite ranges_equal_length; [done|]. by rewrite !reverse_length.
  Qed.

  Lemma stack_reach n s l cs :
    stack_rep n s l ->
    forall s', fold_left (fun o c => o ≫= fun s => (stack_call n s c).1) cs (Some s) = Some s' ->
    exists l', fold_left (fun o c => o ≫= fun s => (lifo_call n s c).1) cs (Some l) = Some l' /\
      stack_rep n s' l'.
  Proof.
    revert s l. induction cs as [|c cs IH]; intros s l Hrep s' Hs'; cbn [fold_left] in *.
    { injection Hs' as <-. eauto. }
    cbn [mbind option_bind] in *.
    assert (stack_top s = match l with v :: _ => Ok v | [] => UB end) as Htop.
    { unfold stack_top. destruct l as [|v l].
      - destruct Hrep as (_ & He & _). by rewrite decide_True.
      - pose proof (stack_rep_lookup _ _ _ _ Hrep) as Hv. destruct Hrep as (_ & He & _). cbn in He.
        rewrite decide_False by lia. apply rget_ok. by rewrite He, Nat.sub_succ, Nat.sub_0_r. }
    assert (fold_left (fun o c => o ≫= fun s => (stack_call n s c).1) cs (@None (stack T)) = None)
      as Hnone by (clear; induction cs; done).
    destruct c as [v| | | | |]; cbn [stack_call lifo_call] in *.
    - destruct (stack_push_rep n s l v Hrep) as [Hok Hfull]. pose proof (stack_rep_le _ _ _ Hrep).
      case_decide as Hlt.
      + destruct (Hok Hlt) as (s1 & E & Hrep'). rewrite E in Hs'. cbn in *. eauto.
      + rewrite Hfull in Hs' by lia. cbn in *. eauto.
    - destruct l as [|x l].
      + unfold stack_pop in Hs'. destruct Hrep as (_ & He & _). rewrite decide_True in Hs' by done.
        cbn in Hs'. congruence.
      + destruct (stack_pop_rep _ _ _ _ Hrep) as (s1 & E & Hrep'). rewrite E in Hs'. cbn in *. eauto.
    - rewrite Htop in Hs'. destruct l; cbn in *; [congruence|eauto].
    - rewrite Htop in Hs'. destruct l; cbn in *; [congruence|eauto].
    - cbn in *. eauto.
    - cbn in *. eauto.
  Qed.
End stack.

(** ** static_priority_queue *)
Section pqueue.
  Context {T : Type} (comp : T -> T -> bool) (Hsw : strict_weak comp).

  (** [bag] is the contents of [q]. *)
  Definition pq_rep (n : nat) (q : pqueue T) (bag : list T) : Prop :=
    length (pq_arr q) = n /\ pq_end q <= n /\
    take (pq_end q) (pq_arr q) ≡ₚ bag /\ is_heap comp (pq_end q) (pq_arr q).

  Lemma pq_rep_length n q bag : pq_rep n q bag -> pq_end q = length bag.
  Proof.
    intros (Hlen & Hle & HP & _). apply Permutation_length in HP. rewrite take_length in HP. lia.
  Qed.

  Lemma pq_rep_perm n q bag bag' : pq_rep n q bag -> bag ≡ₚ bag' -> pq_rep n q bag'.
  Proof. intros (? & ? & HP & ?) HP'. split; [done|]. split; [done|]. by rewrite HP. Qed.

  Lemma pq_push_rep n q bag v :
    pq_rep n q bag ->
    (length bag < n -> exists q', pq_push comp n q v = Ok q' /\ pq_rep n q' (v :: bag)) /\
    (length bag = n -> pq_push comp n q v = Throw LogicError).
  Proof.
    intros Hrep. pose proof (pq_rep_length _ _ _ Hrep) as He. destruct Hrep as (Hlen & Hle & HP & Hh).
    unfold pq_push. split.
    - intros Hlt. rewrite decide_False by lia. unfold rset.
      destruct (lookup_in_range (pq_arr q) (pq_end q)) as [x Hx]; [lia|]. rewrite Hx. cbn [rbind].
      rewrite Nat.add_sub.
      destruct (bubble_up_spec comp (fun x => x) Hsw (<[pq_end q:=v]> (pq_arr q)) (pq_end q))
        as (a & -> & HaP & Hah & Hak).
      + rewrite insert_length. lia.
      + intros i j y z Hj Hij Hy Hz. rewrite list_lookup_insert_ne in Hy, Hz by lia.
        by apply (Hh i j).
      + cbn [rbind]. eexists. split; [done|]. split; [cbn; by rewrite HaP, insert_length|].
        cbn [pq_arr pq_end]. split; [lia|]. rewrite Nat.add_1_r. split; [|done].
        rewrite (take_perm (<[pq_end q:=v]> (pq_arr q))); [|done|].
        * rewrite (take_S_r _ _ v) by (rewrite list_lookup_insert; [done|lia]).
          rewrite take_insert by lia. rewrite HP. by rewrite Permutation_app_comm.
        * intros k Hk. apply Hak. lia.
    - intros Heq. by rewrite decide_True by lia.
  Qed.

  Lemma pq_top_rep n q bag :
    pq_rep n q bag -> bag <> [] -> exists x, pq_top q = Ok x /\ maximal comp bag x.
  Proof.
    intros Hrep Hne. pose proof (pq_rep_length _ _ _ Hrep) as He. destruct Hrep as (Hlen & Hle & HP & Hh).
    assert (0 < length bag) as Hpos by (destruct bag; [done|cbn; lia]).
    unfold pq_top. rewrite decide_False by lia.
    destruct (rget_lt (pq_arr q) 0) as (x & -> & Hx); [lia|]. exists x. split; [done|]. split.
    - rewrite <- HP. apply elem_of_list_lookup. exists 0. rewrite lookup_take by lia. done.
    - intros y Hy. rewrite <- HP in Hy. apply elem_of_list_lookup in Hy as [j Hj].
      pose proof (lookup_lt_Some _ _ _ Hj) as Hlt. rewrite take_length in Hlt.
      rewrite lookup_take in Hj by lia.
      apply (heap_root_max comp (fun x => x) Hsw (pq_end q) (pq_arr q) x y j); try done; lia.
  Qed.

  Lemma pq_pop_rep n q bag :
    pq_rep n q bag -> bag <> [] ->
    exists x q' bag', pq_top q = Ok x /\ pq_pop comp q = Ok q' /\ bag ≡ₚ x :: bag' /\ pq_rep n q' bag'.
  Proof.
    intros Hrep Hne. destruct (pq_top_rep n q bag Hrep Hne) as (x & Htop & Hmax).
    pose proof (pq_rep_length _ _ _ Hrep) as He. destruct Hrep as (Hlen & Hle & HP & Hh).
    assert (0 < length bag) as Hpos by (destruct bag; [done|cbn; lia]).
    assert (pq_arr q !! 0 = Some x) as Hx.
    { unfold pq_top in Htop. rewrite decide_False in Htop by lia. by apply rget_ok. }
    unfold pq_pop. rewrite decide_False by lia.
    destruct (rswap_exists (pq_arr q) 0 (pq_end q - 1)) as [a Ha]; [lia|lia|].
    pose proof (rswap_perm _ _ _ _ Ha) as HaP. pose proof (rswap_ok_lookup _ _ _ _ Ha) as [Hal Hak].
    rewrite Ha. cbn [rbind].
    destruct (make_heap_spec comp (fun x => x) Hsw a (pq_end q - 1)) as (h & Hmk & HhP & Hhh & Hhk); [lia|].
    rewrite Hmk. cbn [rbind].
    exists x, (PQueue h (pq_end q - 1)), (take (pq_end q - 1) h).
    split; [done|]. split; [done|]. split.
    - rewrite (take_perm a h) by done.
      assert (take (pq_end q) a ≡ₚ bag) as HaB.
      { rewrite <- HP. apply take_perm; [done|]. intros k Hk. rewrite Hak.
        rewrite !decide_False by lia. done. }
      rewrite <- HaB. replace (pq_end q) with (S (pq_end q - 1)) at 1 by lia.
      rewrite (take_S_r _ _ x); [by rewrite Permutation_app_comm|].
      rewrite Hak. case_decide as H0; [|by rewrite decide_True].
      replace (pq_end q - 1) with 0 by lia. done.
    - split; [cbn; by rewrite HhP, HaP|]. cbn. split; [lia|]. done.
  Qed.

  Lemma pq_history n q bag cs :
    pq_rep n q bag -> bag_history comp n bag cs (history (pq_call comp n) q cs).
  Proof.
    revert q bag. induction cs as [|c cs IH]; intros q bag Hrep; [constructor|]. cbn [history].
    pose proof (pq_rep_length _ _ _ Hrep) as He.
    destruct c as [v| | | | |]; cbn [pq_call].
    - destruct (pq_push_rep n q bag v Hrep) as [Hok Hfull]. pose proof Hrep as (_ & Hle & _).
      destruct (decide (length bag < n)) as [Hlt|Hge].
      + destruct (Hok Hlt) as (q' & -> & Hrep'). cbn [upd].
        apply (bag_push _ _ _ _ (v :: bag)); [done|done|]. by apply IH.
      + rewrite Hfull by lia. cbn [upd]. apply bag_full; [lia|]. by apply IH.
    - destruct bag as [|b bag].
      + unfold pq_pop. rewrite decide_True by done. cbn [upd]. constructor.
      + destruct (pq_pop_rep n q (b :: bag) Hrep) as (x & q' & bag' & Htop & -> & HP & Hrep'); [done|].
        cbn [upd]. apply (bag_pop _ _ _ x bag'); [|done|by apply IH].
        destruct (pq_top_rep n q (b :: bag) Hrep) as (x' & Htop' & Hmax); [done|].
        assert (x' = x) as -> by congruence. done.
    - destruct bag as [|b bag].
      + unfold pq_top. rewrite decide_True by done. cbn. apply bag_top_empty. by left.
      + destruct (pq_top_rep n q (b :: bag) Hrep) as (x & -> & Hmax); [done|]. cbn [val].
        apply bag_top; [by left|done|by apply IH].
    - destruct bag as [|b bag].
      + unfold pq_top. rewrite decide_True by done. cbn. apply bag_top_empty. by right.
      + destruct (pq_top_rep n q (b :: bag) Hrep) as (x & -> & Hmax); [done|]. cbn [val].
        apply bag_top; [by right|done|by apply IH].
    - unfold pq_size. rewrite He. constructor. by apply IH.
    - unfold pq_empty.
      rewrite (bool_decide_ext (pq_end q = 0) (bag = [])).
      + constructor. by apply IH.
      + rewrite He. destruct bag; cbn; split; done.
  Qed.

  Lemma pq_default_rep d n : pq_rep n (pq_default d n) [].
  Proof.
    split; [apply replicate_length|]. cbn. split; [lia|]. split; [done|].
    intros i j x y Hj. lia.
  Qed.

  Lemma make_heap_loop_app l c a b :
    make_heap_loop comp (fun x => x) l c (a + b) =
    rbind (make_heap_loop comp (fun x => x) l c a)
          (fun l' => make_heap_loop comp (fun x => x) l' (c + a) b).
  Proof.
    revert l c. induction a as [|a IH]; intros l c; cbn [make_heap_loop Nat.add].
    { cbn [rbind]. by rewrite Nat.add_0_r. }
    destruct (bubble_up comp (fun x => x) l c) as [l'| | |]; cbn [rbind]; try done.
    rewrite IH. replace (c + S a) with (c + 1 + a) by lia. done.
  Qed.

  Lemma pads_stay l c k :
    c + k <= length l -> 0 < c ->
    (forall j x y, c <= j -> j < c + k -> l !! j = Some y -> forall i, i < j -> l !! i = Some x -> comp x y = false) ->
    make_heap_loop comp (fun x => x) l c k = Ok l.
  Proof.
    revert c. induction k as [|k IH]; intros c Hlen Hc H; cbn [make_heap_loop]; [done|].
    assert (bubble_up comp (fun x => x) l c = Ok l) as ->.
    { unfold bubble_up. cbn [bubble_up_go]. rewrite decide_False by lia.
      destruct (rget_lt l ((c - 1) / 2)) as (x & -> & Hx); [lia|]. 
      destruct (rget_lt l c) as (y & -> & Hy); [lia|]. cbn [rbind].
      rewrite (H c x y) with (i := (c - 1) / 2); try done; lia. }
    cbn [rbind]. apply IH; [lia|lia|]. intros j x y Hj Hjk Hy i Hi Hx.
    apply (H j x y) with (i := i); try done; lia.
  Qed.

  Lemma pq_make_rep dflt n l :
    length l <= n -> (dflt = None -> length l = n) ->
    (forall d x, dflt = Some d -> x ∈ l -> length l < n -> comp x d = false) ->
    exists q, pq_make comp dflt n l = Ok q /\ pq_rep n q l.
  Proof.
    intros Hl Hd Hpad. unfold pq_make, make_Q.
    assert (exists pad, to_array (fun x => x) dflt n l = Ok (l ++ pad) /\ length pad = n - length l /\
      forall p x, p ∈ pad -> x ∈ l ++ pad -> comp x p = false) as (pad & -> & Hlen & Hp).
    { destruct dflt as [d|].
      - exists (replicate (n - length l) d). rewrite to_array_default, fmap_id_list by done.
        split; [done|]. split; [by rewrite replicate_length|]. intros p x Hpp Hx.
        apply elem_of_replicate in Hpp as [-> Hne].
        apply elem_of_app in Hx as [Hx|Hx].
        + apply (Hpad d x); [done|done|]. lia.
        + apply elem_of_replicate in Hx as [-> _]. apply (sw_irrefl _ Hsw).
      - destruct (init_array None n l Hl Hd) as (pad & E & Hlen). exists pad. split; [done|].
        split; [done|]. rewrite (Hd eq_refl), Nat.sub_diag in Hlen. apply nil_length_inv in Hlen as ->.
        intros p x Hpp. by apply elem_of_nil in Hpp. }
    cbn [rbind]. rewrite app_length, Hlen. replace (length l + (n - length l)) with n by lia.
    (* the list part is made a heap, then the padding stays where it is *)
    destruct (decide (length l = 0)) as [H0|H0].
    { apply nil_length_inv in H0 as ->. cbn [app length] in *.
      destruct (make_heap_spec comp (fun x => x) Hsw pad n) as (h & Hmk & HhP & Hhh & Hhk); [lia|].
      rewrite Hmk. cbn [rbind]. eexists. split; [done|]. split; [cbn; rewrite HhP; lia|]. cbn.
      split; [lia|]. split; [done|]. intros i j x y Hj. lia. }
    assert (exists h, make_heap comp (fun x => x) (l ++ pad) n = Ok (h ++ pad) /\ h ≡ₚ l /\
              is_heap comp (length l) (h ++ pad)) as (h & Hmk & HhP & Hhh).
    { unfold make_heap. case_decide as H1.
      { exists l. split; [done|]. split; [done|].
        intros i j x y Hj Hij. lia. }
      destruct (make_heap_loop_spec comp (fun x => x) Hsw (l ++ pad) 1 (length l - 1))
        as (h & Hmk & HhP & Hhh & Hhk); [lia|rewrite app_length; lia| |].
      { intros i j x y Hj Hij. lia. }
      replace (1 + (length l - 1)) with (length l) in * by lia.
      assert (drop (length l) h = pad) as Hdrop.
      { rewrite <- (drop_app l pad). apply drop_eq_lookup; [by rewrite HhP|]. done. }
      assert (take (length l) h ++ pad = h) as Htd by (by rewrite <- Hdrop, take_drop).
      exists (take (length l) h). rewrite Htd.
      split; [|split; [|done]].
      - replace (n - 1) with ((length l - 1) + (n - length l)) by lia.
        rewrite make_heap_loop_app, Hmk. cbn [rbind].
        replace (1 + (length l - 1)) with (length l) by lia.
        clear Htd. apply pads_stay; [rewrite HhP, app_length; lia|lia|].
        intros j x y Hj Hjn Hy i Hi Hx. apply Hp.
        + rewrite <- Hdrop. apply elem_of_list_lookup. exists (j - length l).
          rewrite lookup_drop. by replace (length l + (j - length l)) with j by lia.
        + rewrite <- HhP. by apply elem_of_list_lookup_2 in Hx.
      - rewrite (take_perm (l ++ pad) h) by done. by rewrite take_app. }
    rewrite Hmk. cbn [rbind]. eexists. split; [done|].
    split; [cbn; rewrite app_length, HhP; lia|]. cbn. split; [lia|]. split; [|done].
    rewrite <- (Permutation_length HhP). by rewrite take_app.
  Qed.
End pqueue.
