(** The report about the allocations of a regular container. *)
From stdpp Require Import list.
From Coq Require Import ZArith.
From Verif.Base Require Import Compare ListLemmas.
From Verif.Semantics Require Import Model.
From Verif.Allocation Require Import Model Spec Proofs.
Local Open Scope Z_scope.

Section regular.
  Context {V : Type} {E : EqDecision V} {cmp : V -> V -> comparison} {infos : list info} {K : costs V} {moved : V -> V} {streams three : bool}.
  Notation M := (machine cmp infos K moved streams three).
  Context (Hfree : free K) (Hcmp : total_cmp cmp) (Hinfos : infos <> []) (Hdiff : Forall (fun n => i_always_equal n = false) infos).

  (** *** Comparisons *)

  Lemma consistent_ok c a b f (w : heap V) :
    (forall w' o, same w w' -> o = a \/ o = b -> fst (f w' o) = true /\ same w' (snd (f w' o))) ->
    exists w', consistent M infos c a b f w = (true, w', []) /\ same w w'.
  Proof using Hfree.
    intros Hf.
    assert (forall o w', same w w' -> o = a \/ o = b -> exists w'', consistent_one M infos c o f w' = (true, w'', []) /\ same w w'') as H1.
    { intros o w' Hw Ho. destruct (Hf w' o Hw Ho) as [Hb Hs]. exists (snd (f w' o)). split; [|by eapply same_trans].
      unfold consistent_one. eapply bind_eq_nil; [reflexivity|]. eapply bind_eq_nil; [by apply (check_true (C := M))|]. cbn iota.
      erewrite guarded_eq; [|apply (each_eq (C := M)); intros i n Hi].
      2:{ apply (allocation_spec (C := M) i _ o _ _ _ 0). destruct Hs as (_&Hid&Hc). cbn. rewrite Hid, Hc. lia. }
      rewrite (proj2 (per_nil _ _)); [done|]. intros i n Hi. by apply wrong_nil. }
    destruct (H1 a w (same_refl w) (or_introl eq_refl)) as (w1 & E1 & S1).
    destruct (H1 b w1 S1 (or_intror eq_refl)) as (w2 & E2 & S2).
    exists w2. split; [|done]. unfold consistent. eapply guarded_nil. eapply bind_eq_nil; [exact E1|]. exact E2.
  Qed.

  Lemma cmp_same_refl v : cmp v v = Eq.
  Proof using Hcmp. by apply (cmp_eq Hcmp). Qed.

  Lemma check_ok t (f : state M -> bool * state M) (w : heap V) :
    fst (f w) = true -> same w (snd (f w)) -> exists w', check M t f w = (true, w', []) /\ same w w'.
  Proof. intros Hb Hs. exists (snd (f w)). split; [|done]. by apply (check_true (C := M)). Qed.

  Lemma same_val w w' o : same w w' -> h_val (V := V) w' o = h_val w o.
  Proof. intros H. apply H. Qed.

  Lemma equality_ok (w : heap V) a b : h_val w a <> h_val w b ->
    exists w', equality_prerequisites M infos a b w = (true, w', []) /\ same w w'.
  Proof using Hfree.
    intros Hv. unfold equality_prerequisites.
    edestruct (consistent_ok 0 a b (fun w u => c_eq M w u u) w) as (w1 & E1 & S1).
    { intros w' o Hw _. cbn. split; [by apply bool_decide_eq_true|by apply compare_same]. }
    edestruct (consistent_ok 1 a b (fun w u => neg M (c_ne M w u u)) w1) as (w2 & E2 & S2).
    { intros w' o Hw _. cbn. rewrite bool_decide_eq_true_2 by done. split; [done|by apply compare_same]. }
    edestruct (check_ok (Value NotDifferent) (fun w => c_ne M w a b) w2) as (w3 & E3 & S3).
    { cbn. rewrite !(same_val _ _ _ S2), !(same_val _ _ _ S1). by rewrite bool_decide_eq_false_2. }
    { by apply compare_same. }
    exists w3. split; [|by eapply same_trans; [exact S1|eapply same_trans]].
    eapply bind_eq_nil; [exact E1|]. eapply bind_eq_nil; [exact E2|]. exact E3.
  Qed.

  Lemma ordering_ok (w : heap V) a b o : cmp (h_val w a) (h_val w b) = o -> o <> Eq ->
    exists w', ordering_consistency M infos a b w = (true, w', []) /\ same w w'.
  Proof using Hfree Hcmp.
    intros Ho Hne. unfold ordering_consistency, ordering_operators.
    edestruct (consistent_ok 2 a b (fun w u => neg M (c_lt M w u u)) w) as (w1 & E1 & S1).
    { intros w' u Hw _. cbn. rewrite cmp_same_refl. split; [done|by apply compare_same]. }
    edestruct (consistent_ok 4 a b (fun w u => c_le M w u u) w1) as (w2 & E2 & S2).
    { intros w' u Hw _. cbn. rewrite cmp_same_refl. split; [done|by apply compare_same]. }
    edestruct (consistent_ok 3 a b (fun w u => neg M (c_gt M w u u)) w2) as (w3 & E3 & S3).
    { intros w' u Hw _. cbn. rewrite cmp_same_refl. split; [done|by apply compare_same]. }
    edestruct (consistent_ok 5 a b (fun w u => c_ge M w u u) w3) as (w4 & E4 & S4).
    { intros w' u Hw _. cbn. rewrite cmp_same_refl. split; [done|by apply compare_same]. }
    assert (exists w5, match c_three M with
       | Some t3 => consistent M infos 6 a b (fun w u => (match fst (t3 w u u) with Eq => true | _ => false end, snd (t3 w u u)))
       | None => ret M true end w4 = (true, w5, []) /\ same w4 w5) as (w5 & E5 & S5).
    { cbn. destruct three; [|by exists w4; split; [|apply same_refl]].
      apply consistent_ok. intros w' u Hw _. cbn. rewrite cmp_same_refl. split; [done|by apply compare_same]. }
    assert (same w w5) as S by (repeat (eapply same_trans; [eassumption|]); apply same_refl).
    assert (exists w6 : heap V, w6 = snd (c_lt M w5 a b)) as [w6 Hw6] by (eexists; reflexivity).
    assert (same w w6) as S6 by (rewrite Hw6; eapply same_trans; [exact S|by apply compare_same]).
    assert (forall u v, cmp (h_val w u) (h_val w v) = Lt -> exists w', compared M u v w6 = (true, w', []) /\ same w w') as Hcompared.
    { intros u v Huv. unfold compared.
      assert (cmp (h_val w v) (h_val w u) = Gt) as Hvu by (rewrite (cmp_opp Hcmp), Huv; done).
      edestruct (check_ok (Value GtLt) (fun w => c_gt M w v u) w6) as (w7 & E7 & S7).
      { cbn. rewrite !(same_val _ _ _ S6). by apply bool_decide_eq_true. } { by apply compare_same. }
      assert (same w w7) as S7' by (by eapply same_trans).
      edestruct (check_ok (Value LtLe) (fun w => c_le M w u v) w7) as (w8 & E8 & S8).
      { cbn. rewrite !(same_val _ _ _ S7'). apply bool_decide_eq_true. by rewrite Huv. } { by apply compare_same. }
      assert (same w w8) as S8' by (by eapply same_trans).
      edestruct (check_ok (Value LtGe) (fun w => c_ge M w v u) w8) as (w9 & E9 & S9).
      { cbn. rewrite !(same_val _ _ _ S8'). apply bool_decide_eq_true. by rewrite Hvu. } { by apply compare_same. }
      assert (same w w9) as S9' by (by eapply same_trans).
      assert (exists w10, match c_three M with
        | Some t3 => check M (Value LtThree) (fun w => (match fst (t3 w u v) with Lt => true | _ => false end, snd (t3 w u v)))
        | None => ret M true end w9 = (true, w10, []) /\ same w9 w10) as (w10 & E10 & S10).
      { cbn. destruct three; [|by exists w9; split; [|apply same_refl]].
        apply check_ok; [|by apply compare_same]. cbn. by rewrite !(same_val _ _ _ S9'), Huv. }
      exists w10. split; [|by eapply same_trans].
      eapply guarded_nil. eapply bind_eq_nil; [exact E7|]. eapply bind_eq_nil; [exact E8|].
      eapply bind_eq_nil; [exact E9|]. exact E10. }
    assert (exists w', (if fst (c_lt M w5 a b) then compared M a b else compared M b a) w6 = (true, w', []) /\ same w w') as (w' & E' & S').
    { cbn [fst c_lt machine]. rewrite !(same_val _ _ _ S), Ho. destruct o; [done|..]; cbn.
      - by apply Hcompared.
      - apply Hcompared. by rewrite (cmp_opp Hcmp), Ho. }
    exists w'. split; [|done]. eapply bind_eq_nil.
    { eapply guarded_nil. eapply bind_eq_nil; [exact E1|]. eapply bind_eq_nil; [exact E2|].
      eapply bind_eq_nil; [exact E3|]. eapply bind_eq_nil; [exact E4|]. exact E5. }
    cbn iota. rewrite Hw6 in E'. eapply bind_eq_nil; [reflexivity|]. exact E'.
  Qed.

  Lemma prerequisites_ok (order : option comparison) (w : heap V) a b (c : option (likes M)) : h_val w a <> h_val w b ->
    (forall o, order = Some o -> cmp (h_val w a) (h_val w b) = o) ->
    (forall lx ly w', c = Some (lx, ly) -> same w w' ->
      (fst (lx w' a) = true /\ same w' (snd (lx w' a))) /\ (fst (ly w' b) = true /\ same w' (snd (ly w' b)))) ->
    exists w', prerequisites M infos order a b c w = (true, w', []) /\ same w w'.
  Proof using Hfree Hcmp.
    intros Hv Ho Hc. unfold prerequisites, clone_prerequisites. destruct (equality_ok w a b Hv) as (w1 & E1 & S1).
    assert (exists w2, match c with
      | Some (like_x, like_y) => bind M (check M (Value (NotClone a)) (fun w => like_x w a)) (fun xp =>
          bind M (check M (Value (NotClone b)) (fun w => like_y w b)) (fun yp => ret M (xp && yp)))
      | None => ret M true end w1 = (true, w2, []) /\ same w w2) as (w2 & E2 & S2).
    { destruct c as [[lx ly]|]; [|by exists w1]. destruct (Hc lx ly w1 eq_refl S1) as [[Hx Sx] _].
      edestruct (check_ok (Value (NotClone a)) (fun w => lx w a) w1) as (w2 & E2 & S2); [done..|].
      assert (same w w2) as S2' by (by eapply same_trans).
      destruct (Hc lx ly w2 eq_refl S2') as [_ [Hy Sy]].
      edestruct (check_ok (Value (NotClone b)) (fun w => ly w b) w2) as (w3 & E3 & S3); [done..|].
      exists w3. split; [|by eapply same_trans]. eapply bind_eq_nil; [exact E2|]. eapply bind_eq_nil; [exact E3|]. done. }
    assert (bind M (equality_prerequisites M infos a b) (fun b0 : bool => if b0 then match c with
      | Some (like_x, like_y) => bind M (check M (Value (NotClone a)) (fun w => like_x w a)) (fun xp =>
          bind M (check M (Value (NotClone b)) (fun w => like_y w b)) (fun yp => ret M (xp && yp)))
      | None => ret M true end else ret M false) w = (true, w2, [])) as E3.
    { eapply bind_eq_nil; [exact E1|]. destruct c as [[]|]; exact E2. }
    destruct order as [o|].
    - specialize (Ho o eq_refl). assert (o <> Eq) as Hne. { intros ->. apply (cmp_eq Hcmp) in Ho. done. }
      edestruct (ordering_ok w2 a b o) as (w4 & E4 & S4); [by rewrite !(same_val _ _ _ S2)|done|].
      assert (same w w4) as S4' by (by eapply same_trans).
      edestruct (check_ok (Value (Assumed (match o with Eq => false | _ => true end))) (fun w => match o with Lt => c_lt M w a b | _ => c_gt M w a b end) w4)
        as (w5 & E5 & S5).
      { destruct o; [done|..]; cbn; rewrite !(same_val _ _ _ S4'); by apply bool_decide_eq_true. }
      { destruct o; by apply compare_same. }
      exists w5. split; [|by eapply same_trans].
      eapply bind_eq_nil; [exact E3|]. cbn iota. eapply bind_eq_nil; [by apply (check_true (C := M)); destruct o|]. cbn iota. cbn [snd].
      eapply bind_eq_nil; [exact E4|]. cbn iota. exact E5.
    - exists w2. split; [|done]. eapply bind_eq_nil; [exact E3|]. done.
  Qed.

  (** *** Stages *)

  Lemma given_same w w' x y : same w w' -> given w x y infos -> given (V := V) w' x y infos.
  Proof. intros (Hv & Hi & _) [Hx Hy Ha]. split; rewrite ?Hv; try done. intros i n. rewrite !Hi. apply Ha. Qed.

  Lemma trait_at f i n : infos !! i = Some n -> trait infos f i = f n.
  Proof. unfold trait. by intros ->. Qed.

  Lemma copy_stage w0 w x y : given w0 x y infos -> same w0 w ->
    exists w1 w2, check M (Value CopyConstruction) (fun a => c_same M a 2 0) (c_copy M w 0 2) = (true, w1, []) /\
      action M infos (bind M (act M (fun a => c_copy M a 1 12)) (fun _ => bind M (copy_allocations M infos 2 12 (c_count M w0 0) (c_count M w0 1))
        (fun _ => act M (fun a => c_destroy M a 12)))) w1 =
        (tt, w2, per infos (fun i n => wrong i ECopyX (k_copy K i x) (p_x (i_predictions n))) ++
                 per infos (fun i n => wrong i ECopyY (k_copy K i y) (p_copy (i_predictions n)))) /\
      given w2 x y infos /\ h_val w2 2 = x /\ (forall i, h_id w2 2 i = h_id w2 0 i).
  Proof using Hfree Hinfos.
    intros G Hs. pose proof (given_same _ _ _ _ Hs G) as [Hx Hy Ha]. destruct G as [Hx0 Hy0 Ha0].
    edestruct (check_ok (Value CopyConstruction) (fun a => c_same M a 2 0) (c_copy M w 0 2)) as (w1 & E1 & S1).
    { calc. by apply bool_decide_eq_true. } { by apply compare_same. }
    exists w1, (do_copy K w1 1 12). split; [exact E1|]. split_and!.
    - eapply action_eq; [done|]. eapply bind_eq_nil; [reflexivity|]. rewrite <- (app_nil_r (_ ++ _)). eapply bind_eq; [|reflexivity].
      unfold copy_allocations. eapply bind_eq; eapply (each_eq (C := M)); intros i n Hi; apply (allocation_spec (C := M)).
      + calc. rewrite !Nat.eqb_refl. specialize (Ha0 i n Hi). apply Nat.eqb_neq in Ha0 as ->. rewrite Hx0. lia.
      + calc. specialize (Ha0 i n Hi). apply not_eq_sym, Nat.eqb_neq in Ha0. rewrite Ha0, Nat.eqb_refl, Hy0. lia.
    - split; [calc; done|calc; done|intros i n Hi; calc; exact (Ha0 i n Hi)].
    - by calc.
    - intros i. by calc.
  Qed.

  Lemma copy_assign_stage w x y : given w x y infos -> h_val w 2 = x -> (forall i, h_id w 2 i = h_id w 0 i) ->
    exists w', copy_assign_check M infos 2 1 w = (true, w', per infos (fun i n =>
        if i_copy n then wrong i EAssignX (k_assign K i x y) (p_assign (i_predictions n)) ++ wrong i EAssignY (k_assign K i x y) (p_assign (i_predictions n))
        else wrong i EAssignX (k_assign K i x y) (p_assign_no_prop (i_predictions n)))) /\
      given w' x y infos /\ h_val w' 2 = y.
  Proof using Hfree Hinfos.
    intros [Hx Hy Ha] Hz Hid. unfold copy_assign_check.
    edestruct (check_ok (Value CopyAssignment) (fun a => c_same M a 2 1) (c_copy_assign M w 2 1)) as (w1 & E1 & S1).
    { calc. by apply bool_decide_eq_true. } { by apply compare_same. }
    edestruct (check_ok (Value SelfCopyAssignment) (fun a => c_same M a 2 1) (c_copy_assign M w1 2 2)) as (w2 & E2 & S2).
    { calc. by apply bool_decide_eq_true. } { by apply compare_same. }
    exists w2. split_and!.
    - eapply bind_eq_nil; [reflexivity|]. eapply bind_eq_nil; [reflexivity|]. eapply bind_eq_nil; [reflexivity|].
      eapply bind_eq_nil; [exact E1|]. cbn iota. rewrite <- (app_nil_r (per _ _)). eapply bind_eq.
      + eapply action_eq; [done|]. eapply (each_eq (C := M)). intros i n Hi.
        pose proof (trait_at i_copy i n Hi) as Ht. pose proof (Ha i n Hi) as Hi'.
        destruct (i_copy n) eqn:Hc; [|rewrite <- (app_nil_r (wrong _ _ _ _))];
          (eapply bind_eq; [apply (allocation_spec (C := M))|]).
        * calc. rewrite !Ht, Nat.eqb_refl, Hz, Hy. lia.
        * apply (allocation_spec (C := M)). calc. rewrite !Ht, Nat.eqb_refl, Hz, Hy. lia.
        * calc. rewrite !Ht, Nat.eqb_refl, Hz, Hy. lia.
        * rewrite (allocation_spec (C := M) i EAssignY 1 _ nothing _ 0); [by rewrite (proj2 (wrong_nil _ _ _ _))|].
          calc. rewrite !Ht, Hid. apply not_eq_sym, Nat.eqb_neq in Hi' as ->. lia.
      + eapply bind_eq_nil; [reflexivity|]. exact E2.
    - split; [calc; done|calc; done|intros i n Hi; calc; exact (Ha i n Hi)].
    - by calc.
  Qed.

  Lemma move_stage w x y : given w x y infos -> h_val w 2 = y ->
    exists w', move_construction M infos 2 3 4 (fun a o => c_best M a o 1) None w =
      (true, w', per infos (fun i n => wrong i EMove (k_move K i y) (p_move (i_predictions n)))) /\
      given w' x y infos.
  Proof using Hfree Hinfos.
    intros [Hx Hy Ha] Hz. unfold move_construction.
    edestruct (check_ok (Value MoveConstruction) (fun a => c_best M a 3 1) (c_move M w 2 3)) as (w1 & E1 & S1).
    { calc. apply bool_decide_eq_true. congruence. } { by apply compare_same. }
    eexists. split.
    - eapply bind_eq_nil; [reflexivity|]. eapply bind_eq_nil; [reflexivity|]. eapply bind_eq_nil; [exact E1|]. cbn iota.
      eapply bind_eq_nil; [reflexivity|]. rewrite <- (app_nil_r (per _ _)). eapply bind_eq.
      + eapply action_eq; [done|]. eapply (each_eq (C := M)). intros i n Hi. apply (allocation_spec (C := M)).
        calc. rewrite Nat.eqb_refl, Hz. lia.
      + reflexivity.
    - split; [calc; done|calc; done|intros i n Hi; calc; exact (Ha i n Hi)].
  Qed.

  Context (f : V -> V).
  Notation mut := (Some (do_mutate K f : state M -> nat -> state M)).

  (** [a] is assigned [b]; the others are left alone *)
  Lemma move_assign_stage w u v a b (like : state M -> nat -> bool * state M) :
    a <> b -> h_val w a = u -> h_val w b = v -> (forall i n, infos !! i = Some n -> h_id w a i <> h_id w b i) ->
    (forall w', h_val w' a = v -> (forall k, k <> a -> k <> b -> h_val w' k = h_val w k) -> fst (like w' a) = true /\ same w' (snd (like w' a))) ->
    exists w', move_assign M infos mut a b like None w =
      (tt, w', per infos (fun i n => wrong i EMoveAssign (k_move_assign K i (i_move n) u v)
                 (if i_move n then p_move_assign (i_predictions n) else p_move_assign_no_prop (i_predictions n))) ++
               per infos (fun i n => wrong i EMutationMoveAssign (k_mutate K i v) (p_mutation (i_predictions n)))) /\
      (forall o, o <> a -> o <> b -> h_val w' o = h_val w o /\ forall i, h_id w' o i = h_id w o i).
  Proof using Hfree Hinfos.
    intros Hab Ha Hb Hid Hlike. unfold move_assign.
    assert (Nat.eqb a b = false) as Hab' by by apply Nat.eqb_neq.
    assert (Nat.eqb b a = false) as Hba' by by apply Nat.eqb_neq; congruence.
    destruct (Hlike (c_move_assign M w a b)) as [Hl Sl]. { calc. by rewrite Nat.eqb_refl. }
    { intros k Hka%Nat.eqb_neq Hkb%Nat.eqb_neq. calc. by rewrite Hka, Hkb. }
    edestruct (check_ok (Value MoveAssignment) (fun a' => like a' a) (c_move_assign M w a b)) as (w1 & E1 & S1); [done..|].
    eexists. split.
    - eapply bind_eq_nil; [reflexivity|]. eapply bind_eq_nil; [reflexivity|]. eapply bind_eq_nil; [reflexivity|].
      eapply bind_eq_nil; [reflexivity|]. eapply bind_eq_nil; [exact E1|]. cbn iota. eapply bind_eq_nil; [reflexivity|].
      eapply action_eq; [done|]. eapply bind_eq.
      + eapply (each_eq (C := M)). intros i n Hi. pose proof (trait_at i_move i n Hi) as Ht. pose proof (Hid i n Hi) as Hne.
        apply Nat.eqb_neq in Hne. cbn [c_equal machine]. rewrite Hne. cbn [orb].
        destruct (i_move n) eqn:Hm; apply (allocation_spec (C := M)); calc; rewrite ?Nat.eqb_refl, ?Ht; cbn [orb]; rewrite ?Nat.eqb_refl, ?Hne; subst; lia.
      + eapply bind_eq_nil; [reflexivity|]. eapply bind_eq_nil; [reflexivity|]. eapply (each_eq (C := M)). intros i n Hi.
        apply (allocation_spec (C := M)). calc. rewrite ?Nat.eqb_refl. calc. rewrite ?Nat.eqb_refl. subst. lia.
    - intros o Hoa Hob. apply Nat.eqb_neq in Hoa, Hob. split; [|intros i]; calc; rewrite ?Hoa, ?Hob; calc; by rewrite ?Hoa, ?Hob.
  Qed.

  Lemma swappable_eq : swappable infos = forallb i_swap infos.
  Proof using Hdiff. unfold swappable. clear Hinfos. induction Hdiff as [|n l Hn Hl IH]; [done|]. simpl. rewrite Hn, orb_false_r. f_equal. exact (IH Hl). Qed.
  Lemma measured_eq : forallb i_swap infos = true -> swap_measured infos = forallb i_move infos.
  Proof.
    unfold swap_measured. clear. induction infos as [|n l IH]; [done|]. simpl. intros [-> H]%andb_true_iff. rewrite andb_true_r. f_equal. exact (IH H).
  Qed.
  Lemma swaps_at i n : forallb i_swap infos = true -> infos !! i = Some n -> i_swap n = true.
  Proof. intros H Hi. rewrite forallb_forall in H. apply H, elem_of_list_In. by eapply elem_of_list_lookup_2. Qed.

  Definition swap_report (u v : V) : list failure :=
    if forallb i_move infos then
      per infos (fun i _ => wrong i ESwapX (fst (k_swap K i u v)) (0, 0) ++ wrong i ESwapY (snd (k_swap K i u v)) (0, 0))
    else [].

  Lemma swap_allocations_ok w w1 a b u v : forallb i_swap infos = true ->
    a <> b -> h_val w a = u -> h_val w b = v -> (forall i n, infos !! i = Some n -> h_id w a i <> h_id w b i) ->
    same (c_swap M w a b) w1 ->
    swap_allocations M infos a b (c_count M w a) (c_count M w b) w1 = (tt, w1, swap_report u v).
  Proof using Hdiff.
    intros Hs Hab Ha Hb Hid S1. unfold swap_allocations, swap_report. rewrite measured_eq by done. destruct (forallb i_move infos); [|done].
    apply Nat.eqb_neq in Hab as Hab'. apply not_eq_sym, Nat.eqb_neq in Hab as Hba'.
    eapply (each_eq (C := M)). intros i n Hi. pose proof (trait_at i_swap i n Hi) as Ht. rewrite (swaps_at i n Hs Hi) in Ht.
    pose proof (Hid i n Hi) as Hne. apply not_eq_sym in Hne as Hne'. apply Nat.eqb_neq in Hne, Hne'.
    eapply bind_eq; apply (allocation_spec (C := M)); calc; rewrite Hab'; calc; rewrite ?Nat.eqb_refl, ?Hab', ?Hba', ?Ht, ?Hne, ?Hne', ?Nat.eqb_refl; subst; lia.
  Qed.

  Lemma swap_stage w x y : given w x y infos -> x <> y -> f y <> y -> forallb i_swap infos = true ->
    exists w', bind M (act M (fun a => c_copy M a 0 7)) (fun _ => bind M (act M (fun a => c_copy M a 1 8)) (fun _ =>
      bind M (swap_check M infos 7 8 (fun a o => c_best M a o 0) (fun a o => c_best M a o 1)
        (fun g h => bind M (swap_allocations M infos 7 8 g h) (fun _ => swap_mutation M infos mut 7 8 1 g h))) (fun _ =>
      act M (fun a => c_destroy M (c_destroy M a 8) 7)))) w =
      (tt, w', swap_report x y ++
               per infos (fun i n => wrong i EMutationSwapY (snd (k_swap K i x y) + k_mutate K i y) (p_mutation (i_predictions n)) ++
                                     wrong i EMutationSwapX (fst (k_swap K i x y)) (0, 0))) /\
      given w' x y infos.
  Proof using Hfree Hinfos Hdiff.
    intros [Hx Hy Ha] Hxy Hf Hs.
    destruct (ex_intro (fun w0 => w0 = c_copy M (c_copy M w 0 7) 1 8) _ eq_refl) as [w0 Hw0].
    assert (h_val w0 7 = x /\ h_val w0 8 = y /\ h_val w0 0 = x /\ h_val w0 1 = y /\
      forall i, h_id w0 7 i = h_id w 0 i /\ h_id w0 8 i = h_id w 1 i /\ h_id w0 0 i = h_id w 0 i /\ h_id w0 1 i = h_id w 1 i) as (H7 & H8 & H0 & H1 & Hi).
    { rewrite Hw0. split_and!; by calc. }
    assert (forall i n, infos !! i = Some n -> h_id w0 7 i <> h_id w0 8 i) as Hid.
    { intros i n Hn. rewrite (proj1 (Hi i)), (proj1 (proj2 (Hi i))). by eapply Ha. }
    destruct (ex_intro (fun w1 => w1 = c_swap M w0 7 8) _ eq_refl) as [ws Hws].
    assert (h_val ws 7 = y /\ h_val ws 8 = x /\ h_val ws 0 = x /\ h_val ws 1 = y) as (G7 & G8 & G0 & G1).
    { rewrite Hws. split_and!; by calc. }
    assert (forall i n, infos !! i = Some n -> h_id ws 7 i = h_id w0 8 i /\ h_id ws 8 i = h_id w0 7 i /\
      h_count ws i (h_id w0 8 i) = h_count w0 i (h_id w0 8 i) + Z.of_nat (snd (k_swap K i x y)) /\
      h_count ws i (h_id w0 7 i) = h_count w0 i (h_id w0 7 i) + Z.of_nat (fst (k_swap K i x y))) as Gi.
    { intros i n Hn. pose proof (trait_at i_swap i n Hn) as Ht. rewrite (swaps_at i n Hs Hn) in Ht.
      pose proof (Hid i n Hn) as Hne. apply not_eq_sym in Hne as Hne'. apply Nat.eqb_neq in Hne, Hne'.
      rewrite Hws. split_and!; calc; rewrite ?Ht, ?Nat.eqb_refl, ?Hne, ?Hne', ?H7, ?H8; lia. }
    assert (forall k i, k = 0%nat \/ k = 1%nat -> h_id ws k i = h_id w k i) as Gid.
    { intros k i [-> | ->]; rewrite Hws; calc; apply Hi. }
    edestruct (check_ok (Value SwapY) (fun a => c_best M a 8 0) ws) as (w1 & E1 & S1).
    { calc. apply bool_decide_eq_true. congruence. } { by apply compare_same. }
    edestruct (check_ok (Value SwapX) (fun a => c_best M a 7 1) w1) as (w2 & E2 & S2).
    { calc. apply bool_decide_eq_true. congruence. } { by apply compare_same. }
    assert (same ws w2) as S12 by (by eapply same_trans).
    edestruct (check_ok SwapPrecondition (fun a => c_eq M a 7 1) w2) as (w3 & E3 & S3).
    { calc. apply bool_decide_eq_true. congruence. } { by apply compare_same. }
    assert (same ws w3) as S13 by (by eapply same_trans). clear S2 S3 S1.
    edestruct (check_ok SwapMutation (fun a => c_ne M a 7 1) (do_mutate K f w3 7)) as (w4 & E4 & S4).
    { calc. rewrite bool_decide_eq_false_2; [done|]. congruence. } { by apply compare_same. }
    assert (h_val w4 0 = x /\ h_val w4 8 = x /\ h_val w4 1 = y) as (F0 & F8 & F1).
    { split_and!; calc; congruence. }
    assert (forall k i, k = 0%nat \/ k = 1%nat -> h_id w4 k i = h_id w k i) as Fid.
    { intros k i Hk. rewrite <- (Gid k i Hk). destruct Hk as [-> | ->]; calc; reflexivity. }
    edestruct (check_ok (Value SelfSwap) (fun a => c_best M a 8 0) (c_swap M w4 8 8)) as (w5 & E5 & S5).
    { cbn [fst snd c_best machine]. apply bool_decide_eq_true. cbn. congruence. } { by apply compare_same. }
    exists w5. split.
    - eapply bind_eq_nil; [reflexivity|]. eapply bind_eq_nil; [reflexivity|]. rewrite <- Hw0. rewrite <- (app_nil_r (_ ++ _)).
      eapply bind_eq; [|reflexivity]. unfold swap_check.
      eapply bind_eq_nil; [reflexivity|]. eapply bind_eq_nil; [reflexivity|]. eapply bind_eq_nil; [reflexivity|]. rewrite <- Hws.
      eapply bind_eq_nil; [exact E1|]. eapply bind_eq_nil; [exact E2|]. cbn iota. cbn [andb]. rewrite <- (app_nil_r (_ ++ _)).
      eapply bind_eq; [|eapply bind_eq_nil; [reflexivity|exact E5]].
      eapply action_eq; [done|]. eapply bind_eq; [apply swap_allocations_ok; try done; by rewrite <- Hws|]. unfold swap_mutation.
      eapply bind_eq_nil; [exact E3|]. cbn iota. eapply bind_eq_nil; [reflexivity|]. rewrite <- (app_nil_r (per _ _)).
      eapply bind_eq; [|eapply bind_eq_nil; [exact E4|reflexivity]].
      eapply (each_eq (C := M)). intros i n Hn. pose proof (trait_at i_swap i n Hn) as Ht. rewrite (swaps_at i n Hs Hn) in *.
      destruct (Gi i n Hn) as (I7 & I8 & C8 & C7).
      pose proof (Hid i n Hn) as Hne. apply Nat.eqb_neq in Hne.
      eapply bind_eq; apply (allocation_spec (C := M)); calc; rewrite ?I7, ?I8, ?Nat.eqb_refl, ?Hne, ?C7, ?C8, ?G7; lia.
    - split; [rewrite (proj1 S5); exact F0|rewrite (proj1 S5); exact F1|].
      intros i n Hn. rewrite !(proj1 (proj2 S5)). change (h_id w4 0 i <> h_id w4 1 i). rewrite !Fid by auto. exact (Ha i n Hn).
  Qed.

  Lemma mutation_stage w x y : given w x y infos -> f y <> y ->
    exists w', mutation_check M mut 9 1 w = (tt, w', []) /\ given w' x y infos.
  Proof using Hfree.
    intros [Hx Hy Ha] Hf.
    edestruct (check_ok (Value MutationConstruction) (fun a => c_ne M a 9 1) (do_mutate K f (c_copy M w 1 9) 9)) as (w1 & E1 & S1).
    { calc. rewrite bool_decide_eq_false_2; [done|]. congruence. } { by apply compare_same. }
    edestruct (check_ok (Value MutationAfter) (fun a => c_same M a 9 1) (c_copy_assign M w1 9 1)) as (w2 & E2 & S2).
    { calc. by apply bool_decide_eq_true. } { by apply compare_same. }
    edestruct (check_ok (Value MutationAssignment) (fun a => c_ne M a 9 1) (do_mutate K f w2 9)) as (w3 & E3 & S3).
    { calc. rewrite bool_decide_eq_false_2; [done|]. congruence. } { by apply compare_same. }
    exists w3. split.
    - unfold mutation_check. eapply bind_eq_nil; [reflexivity|]. eapply bind_eq_nil; [reflexivity|].
      eapply bind_eq_nil; [|reflexivity]. eapply bind_eq_nil; [exact E1|]. cbn iota.
      eapply bind_eq_nil; [reflexivity|]. eapply bind_eq_nil; [exact E2|]. cbn iota.
      eapply bind_eq_nil; [reflexivity|]. eapply bind_eq_nil; [exact E3|]. reflexivity.
    - split; [calc; congruence|calc; congruence|intros i n Hi; calc; exact (Ha i n Hi)].
  Qed.

  (** [u] is read what has been written of [o] *)
  Lemma serialization_stage w v u o (like : state M -> nat -> bool * state M) : h_val w o = v ->
    (forall w', h_val w' u = v -> (forall k, k <> u -> h_val w' k = h_val w k) -> fst (like w' u) = true /\ same w' (snd (like w' u))) ->
    exists w', serialization_check M infos u o like w =
      (tt, w', if streams then per infos (fun i _ => wrong i ESerialization (k_write K i v) (0, 0)) else []) /\
      (forall k, k <> u -> h_val w' k = h_val w k) /\ (forall k i, h_id w' k i = h_id w k i).
  Proof using Hinfos f.
    intros Hv Hlike. unfold serialization_check. cbn [c_serialize machine]. destruct streams; [|by exists w].
    destruct (ex_intro (fun w1 => w1 = spend (place (spend w (h_id w o) (fun i => k_write K i (h_val w o))) u (h_val w o) (h_id w u)) (h_id w u)
      (fun i => k_read K i (h_val w o))) _ eq_refl) as [w1 Hw1].
    destruct (Hlike w1) as [Hl Sl].
    { rewrite Hw1. calc. by rewrite Nat.eqb_refl. }
    { intros k Hk%Nat.eqb_neq. rewrite Hw1. calc. by rewrite Hk. }
    edestruct (check_ok (Value Serialization) (fun a => like a u) w1) as (w2 & E2 & S2); [done..|].
    exists w2. split_and!.
    - eapply bind_eq_nil; [reflexivity|]. eapply bind_eq_nil; [reflexivity|]. rewrite <- (app_nil_r (per _ _)). eapply bind_eq.
      + eapply action_eq; [done|]. eapply (each_eq (C := M)). intros i n Hi. apply (allocation_spec (C := M)). calc. rewrite Nat.eqb_refl, Hv. lia.
      + eapply bind_eq_nil; [reflexivity|]. cbn [fst snd]. eapply bind_eq_nil; [|reflexivity].
        etransitivity; [|exact E2]. rewrite Hw1. reflexivity.
    - intros k Hk%Nat.eqb_neq. rewrite (proj1 S2), Hw1. calc. by rewrite Hk.
    - intros k i. rewrite (proj1 (proj2 S2)), Hw1. calc. destruct (Nat.eqb_spec k u) as [->|]; done.
  Qed.

  Lemma para_stage w x y : given w x y infos -> exists w', para_constructors M infos mut w = (tt, w', expected_para infos K y).
  Proof using Hfree.
    intros [Hx Hy Ha].
    destruct (ex_intro (fun w0 => w0 = c_para_copy M w 1 20) _ eq_refl) as [wa Hwa].
    assert (h_val wa 20 = y /\ h_val wa 1 = y /\ forall i, h_count wa i (h_id wa 20 i) = Z.of_nat (k_para_copy K i y)) as (A20 & A1 & Ai).
    { rewrite Hwa. split_and!; [by calc..|]. intros i. calc. rewrite !Nat.eqb_refl, Hy. lia. }
    edestruct (check_ok ParaCopyValue (fun a => c_same M a 20 1) wa) as (w1 & E1 & S1).
    { calc. apply bool_decide_eq_true. congruence. } { by apply compare_same. }
    destruct (ex_intro (fun w0 => w0 = c_copy M w1 20 21) _ eq_refl) as [wb Hwb].
    assert (h_val wb 21 = y /\ h_val wb 1 = y) as (B21 & B1).
    { rewrite Hwb. split_and!; by calc. }
    destruct (ex_intro (fun w0 => w0 = c_para_move M wb 21 22) _ eq_refl) as [wc Hwc].
    assert (h_val wc 22 = y /\ h_val wc 1 = y /\ forall i, h_count wc i (h_id wc 22 i) = Z.of_nat (k_para_move K i y)) as (C22 & C1 & Ci).
    { rewrite Hwc. split_and!; [by calc..|]. intros i. calc. rewrite !Nat.eqb_refl, B21. lia. }
    edestruct (check_ok (ParaMoveValue 1) (fun a => c_same M a 22 1) wc) as (w3 & E3 & S3).
    { calc. apply bool_decide_eq_true. congruence. } { by apply compare_same. }
    eexists. unfold para_constructors, expected_para.
    eapply bind_eq_nil; [reflexivity|]. rewrite <- Hwa. eapply bind_eq_nil; [exact E1|]. cbn iota. eapply bind_eq.
    { eapply (each_eq (C := M)). intros i n Hi. apply (allocation_spec (C := M)). cbn [c_count machine]. sames. rewrite Ai. lia. }
    eapply bind_eq_nil; [reflexivity|]. rewrite <- Hwb.
    eapply bind_eq_nil; [reflexivity|]. eapply bind_eq_nil; [reflexivity|]. cbn [c_destroy machine].
    eapply bind_eq_nil; [rewrite <- Hwc; exact E3|]. cbn iota.
    rewrite <- (app_nil_r (_ ++ _)). eapply bind_eq; [|reflexivity].
    eapply bind_eq.
    { eapply (each_eq (C := M)). intros i n Hi. apply (allocation_spec (C := M)). cbn [c_count machine]. sames. rewrite Ci. lia. }
    eapply bind_eq_nil; [reflexivity|]. eapply bind_eq_nil; [reflexivity|].
    eapply (each_eq (C := M)). intros i n Hi. apply (allocation_spec (C := M)). calc. rewrite Nat.eqb_refl, C22. lia.
  Qed.

  Lemma regular_body_ok w x y (order : option comparison) : given w x y infos -> x <> y -> f y <> y ->
    (forall o, order = Some o -> cmp x y = o) ->
    exists b w', regular_body M infos mut order w = (b, w', expected_body infos K streams x y) /\ given w' x y infos.
  Proof using Hfree Hcmp Hinfos Hdiff.
    intros G Hxy Hf Ho. unfold regular_body, expected_body. rewrite swappable_eq.
    destruct (prerequisites_ok order w 0 1 None) as (w1 & E1 & S1).
    { destruct G as [-> -> _]. done. } { destruct G as [-> -> _]. done. } { done. }
    destruct (copy_stage w w1 x y G S1) as (w2 & w3 & E2 & E3 & G3 & Z3 & I3).
    destruct (copy_assign_stage w3 x y G3 Z3 I3) as (w4 & E4 & G4 & Z4).
    destruct (move_stage w4 x y G4 Z4) as (w5 & E5 & G5).
    destruct (ex_intro (fun w0 => w0 = c_copy M (c_copy M w5 0 5) 1 6) _ eq_refl) as [w6 Hw6].
    destruct (move_assign_stage w6 x y 5 6 (fun a o => c_best M a o 1)) as (w7 & E7 & L7).
    { done. } { rewrite Hw6. calc. apply G5. } { rewrite Hw6. calc. apply G5. }
    { intros i n Hi. rewrite Hw6. calc. by apply (g_apart _ _ _ _ G5 i n). }
    { intros w' Hw' Hk. cbn [c_best machine fst snd]. split; [|by apply compare_same].
      apply bool_decide_eq_true. rewrite Hw', (Hk 1%nat) by done. rewrite Hw6. calc. symmetry. apply G5. }
    assert (given w7 x y infos) as G7.
    { destruct (L7 0%nat) as [V0 J0]; [done..|]. destruct (L7 1%nat) as [V1 J1]; [done..|].
      split; [rewrite V0, Hw6; calc; apply G5|rewrite V1, Hw6; calc; apply G5|].
      intros i n Hi. rewrite J0, J1, Hw6. calc. by apply (g_apart _ _ _ _ G5 i n). }
    assert (exists w8, (if forallb i_swap infos then
           bind M (act M (fun a => c_copy M a 0 7)) (fun _ => bind M (act M (fun a => c_copy M a 1 8)) (fun _ =>
           bind M (swap_check M infos 7 8 (fun a o => c_best M a o 0) (fun a o => c_best M a o 1)
             (fun g h => bind M (swap_allocations M infos 7 8 g h) (fun _ => swap_mutation M infos mut 7 8 1 g h))) (fun _ =>
           act M (fun a => c_destroy M (c_destroy M a 8) 7)))) else ret M tt) w7 =
      (tt, w8, if forallb i_swap infos then swap_report x y ++
               per infos (fun i n => wrong i EMutationSwapY (snd (k_swap K i x y) + k_mutate K i y) (p_mutation (i_predictions n)) ++
                                     wrong i EMutationSwapX (fst (k_swap K i x y)) (0, 0)) else []) /\ given w8 x y infos) as (w8 & E8 & G8).
    { destruct (forallb i_swap infos) eqn:Hs; [by apply swap_stage|by exists w7]. }
    destruct (mutation_stage w8 x y G8 Hf) as (w9 & E9 & G9).
    destruct (serialization_stage (c_copy M w9 0 10) y 10 1 (fun a o => c_best M a o 1)) as (w10 & E10 & L10 & J10).
    { calc. apply G9. }
    { intros w' Hw' Hk. cbn [c_best machine fst snd]. split; [|by apply compare_same].
      apply bool_decide_eq_true. rewrite Hw', (Hk 1%nat) by done. calc. symmetry. apply G9. }
    assert (exists w11, match c_serialize M with
         | Some _ => bind M (act M (fun a => c_copy M a 0 10)) (fun _ => bind M (serialization_check M infos 10 1 (fun a o => c_best M a o 1))
             (fun _ => act M (fun a => c_destroy M a 10)))
         | None => ret M tt end w9 =
      (tt, w11, if streams then per infos (fun i _ => wrong i ESerialization (k_write K i y) (0, 0)) else []) /\ given w11 x y infos)
      as (w11 & E11 & G11).
    { destruct G9 as [X9 Y9 A9]. cbn [c_serialize machine] in *. destruct streams eqn:Hst; [|by exists w9].
      exists w10. split.
      - eapply bind_eq_nil; [reflexivity|]. rewrite <- (app_nil_r (per _ _)). eapply bind_eq; [exact E10|reflexivity].
      - split; [rewrite L10 by done; calc; done|rewrite L10 by done; calc; done|]. intros i n Hi. rewrite !J10. calc. by apply (A9 i n). }
    exists true, w11. split; [|exact G11].
    eapply bind_eq_nil; [reflexivity|]. eapply bind_eq_nil; [reflexivity|]. eapply bind_eq_nil; [exact E1|]. cbn iota.
    eapply bind_eq_nil; [reflexivity|]. eapply bind_eq_nil; [exact E2|]. cbn iota.
    rewrite app_assoc. eapply bind_eq; [exact E3|].
    eapply bind_eq; [exact E4|]. cbn iota. eapply bind_eq.
    { rewrite <- (app_nil_r (per _ _)). eapply bind_eq; [exact E5|]. reflexivity. }
    eapply bind_eq_nil; [reflexivity|]. eapply bind_eq_nil; [reflexivity|]. cbn [c_destroy machine].
    rewrite app_assoc. rewrite <- Hw6. eapply bind_eq; [exact E7|].
    eapply bind_eq_nil; [reflexivity|]. eapply bind_eq; [exact E8|]. eapply bind_eq_nil; [exact E9|].
    rewrite <- (app_nil_r (if streams then _ else _)). eapply bind_eq; [exact E11|]. reflexivity.
  Qed.

  Lemma regular_report w x y (order : option comparison) : given w x y infos -> x <> y -> f y <> y ->
    (forall o, order = Some o -> cmp x y = o) ->
    failures (regular_semantics M infos mut order) w = expected infos K streams x y.
  Proof using Hfree Hcmp Hinfos Hdiff.
    intros G Hxy Hf Ho. destruct (regular_body_ok w x y order G Hxy Hf Ho) as (b & w' & E1 & G').
    unfold failures, regular_semantics, expected, bind, guarded. rewrite E1.
    destruct (expected_body infos K streams x y) as [|u l]; [|cbn; by rewrite app_nil_r].
    destruct (para_stage w' x y G') as (w'' & ->). done.
  Qed.
End regular.

Section exact.
  Context {V : Type} (infos : list info) (K : costs V) (streams : bool).
  Lemma both_nil {A} (l l' : list A) : l = [] /\ l' = [] -> l ++ l' = [].
  Proof. by intros [-> ->]. Qed.

  Lemma regular_exact x y : expected infos K streams x y = [] <-> forall i n, infos !! i = Some n -> predicted infos K streams x y i n.
  Proof.
    unfold expected. split.
    - intros H. assert (expected_body infos K streams x y = [] /\ expected_para infos K y = []) as [Hb Hp].
      { destruct (expected_body infos K streams x y); [done|discriminate]. }
      unfold expected_body in Hb. unfold expected_para in Hp.
      apply app_eq_nil in Hb as [B1 Hb]. apply app_eq_nil in Hb as [B2 Hb]. apply app_eq_nil in Hb as [B3 Hb]. apply app_eq_nil in Hb as [B4 Hb].
      apply app_eq_nil in Hb as [B5 Hb]. apply app_eq_nil in Hb as [B6 Hb]. apply app_eq_nil in Hb as [B7 B8].
      apply app_eq_nil in Hp as [P1 Hp]. apply app_eq_nil in Hp as [P2 P3].
      rewrite per_nil in B1, B2, B3, B4, B5, B6, P1, P2, P3. intros i n Hi.
      specialize (B1 i n Hi). specialize (B2 i n Hi). specialize (B3 i n Hi). specialize (B4 i n Hi). specialize (B5 i n Hi). specialize (B6 i n Hi).
      specialize (P1 i n Hi). specialize (P2 i n Hi). specialize (P3 i n Hi). rewrite wrong_nil in *.
      split; try done.
      + destruct (i_copy n); [apply app_eq_nil in B3 as [B3 _]|]; by rewrite wrong_nil in B3.
      + intros Hs. rewrite Hs in B7. apply app_eq_nil in B7 as [_ B7]. rewrite per_nil in B7. specialize (B7 i n Hi).
        apply app_eq_nil in B7 as [B7 B7']. rewrite wrong_nil in B7, B7'. cbn [snd] in B7'. destruct (k_swap K i x y) as [p q]. cbn in *.
        f_equal; lia.
      + intros Hs. rewrite Hs, per_nil in B8. specialize (B8 i n Hi). rewrite wrong_nil in B8. cbn in B8. lia.
    - intros H. assert (expected_body infos K streams x y = []) as ->.
      { unfold expected_body. repeat (apply both_nil; split).
        all: try (apply per_nil; intros i n Hi; destruct (H i n Hi); rewrite ?wrong_nil; done).
        - apply per_nil. intros i n Hi. destruct (H i n Hi). destruct (i_copy n); rewrite ?(proj2 (wrong_nil _ _ _ _)) by done; done.
        - destruct (forallb i_swap infos) eqn:Hs; [|done]. apply both_nil. split.
          + destruct (forallb i_move infos); [|done]. apply per_nil. intros i n Hi. destruct (H i n Hi). rewrite a_swap by done. done.
          + apply per_nil. intros i n Hi. destruct (H i n Hi). rewrite a_swap by done. cbn [fst snd]. apply both_nil.
            split; apply wrong_nil; cbn; [exact a_mutation|done].
        - destruct streams; [|done]. apply per_nil. intros i n Hi. destruct (H i n Hi). rewrite a_write by done. done. }
      unfold expected_para. repeat (apply both_nil; split); apply per_nil; intros i n Hi; destruct (H i n Hi); apply wrong_nil; done.
  Qed.
End exact.
