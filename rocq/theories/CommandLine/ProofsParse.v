From Coq Require Import Ascii.
From stdpp Require Import list list_numbers.
From Verif.Base Require Import Outcome ListLemmas.
From Verif.Text Require Import Model.
From Verif.Graph Require Import Model ModelWeighted ModelTree.
From Verif.CommandLine Require Import Model Spec ProofsTree.
Local Open Scope res_scope.

Section parse.
  Context {E : Type}.
  Implicit Types o : opt E.
  Implicit Types os gs : list (opt E).
  Implicit Types L : list (option nat * operation E).
  Implicit Types T : list (otree E).
  Implicit Types a args ws : list text.
  Implicit Types cur prev : opdata.
  Implicit Types ops : list (optree E).

  (** *** Finding options *)

  Lemma find_opt_some (p : opt E -> bool) (P : opt E -> Prop) os o : (forall o, p o = true <-> P o) ->
    find_opt p os = Some o <-> first_of P os o.
  Proof.
    intros Hp. induction os as [|o' os IH]; cbn.
    - split; [done|]. intros (os1 & os2 & H & _). by destruct os1.
    - destruct (p o') eqn:Ep.
      + split.
        * intros [= <-]. exists [], os. split; [done|]. split; [by apply Hp|constructor].
        * intros (os1 & os2 & H & Ho & Hn). destruct os1 as [|o1 os1]; cbn in H; injection H as -> ->; [done|].
          inversion Hn as [|? ? Hn1 _]. exfalso. by apply Hn1, Hp.
      + rewrite IH. split.
        * intros (os1 & os2 & -> & Ho & Hn). exists (o' :: os1), os2. split; [done|]. split; [done|]. constructor; [|done].
          intros H%Hp. congruence.
        * intros (os1 & os2 & H & Ho & Hn). destruct os1 as [|o1 os1]; cbn in H; injection H as -> ->; [apply Hp in Ho; congruence|].
          inversion Hn. by exists os1, os2.
  Qed.

  Lemma find_opt_none (p : opt E -> bool) (P : opt E -> Prop) os : (forall o, p o = true <-> P o) ->
    find_opt p os = None <-> Forall (fun o => ~ P o) os.
  Proof.
    intros Hp. induction os as [|o' os IH]; cbn; [by split|]. destruct (p o') eqn:Ep.
    - split; [done|]. intros H. inversion H as [|? ? H1 _]. exfalso. by apply H1, Hp.
    - rewrite IH. split; [intros H; constructor; [intros H1%Hp; congruence|done]|]. by inversion 1.
  Qed.

  Lemma named_spelt w o : named o w = true <-> spelt o w.
  Proof. unfold named, spelt, is_alias. by rewrite orb_true_iff, !bool_decide_eq_true. Qed.

  Lemma is_alias_in w o : is_alias o w = true <-> w ∈ o_aliases o.
  Proof. unfold is_alias. by rewrite bool_decide_eq_true. Qed.

  Lemma first_of_elem (P : opt E -> Prop) os o : first_of P os o -> o ∈ os /\ P o.
  Proof. intros (os1 & os2 & -> & Ho & _). split; [|done]. apply elem_of_app. right. left. Qed.

  (** *** Where operations are added *)

  Inductive ctx := CTop (pre : list (optree E)) | CNest (pre : list (optree E)) (c : nat) L.

  Definition ctx_ok (top : bool) cur ops (x : ctx) (n : nat) : Prop :=
    match x with
    | CTop pre => top = true /\ oper cur = None /\ ops = pre
    | CNest pre c L =>
        top = false /\ oper cur = Some (length pre, c)
        /\ exists t p w, ops = pre ++ [t] /\ holds t L /\ L !! c = Some (p, w) /\ length (arguments w) = n
    end.

  Inductive ctx_add : ctx -> list text -> list (otree E) -> ctx -> Prop :=
    | add_top pre ts T : Forall2 (fun t u => holds t (flat None 0 u)) ts T -> ctx_add (CTop pre) [] T (CTop (pre ++ ts))
    | add_nest pre c L a T : c < length L -> ctx_add (CNest pre c L) a T (CNest pre c (give c a L ++ flats (Some c) (length L) T)).

  Lemma ctx_add_nil top cur ops x n : ctx_ok top cur ops x n -> ctx_add x [] [] x.
  Proof.
    destruct x as [pre|pre c L]; cbn.
    - intros _. pose proof (add_top pre [] [] ltac:(constructor)) as H. by rewrite app_nil_r in H.
    - intros (_ & _ & t & p & w & _ & _ & Hc & _). apply lookup_lt_Some in Hc. pose proof (add_nest pre c L [] [] Hc) as H.
      cbn [flats] in H. by rewrite give_nil, app_nil_r in H.
  Qed.

  Lemma ctx_add_app x a T x1 a' T' x2 : ctx_add x a T x1 -> ctx_add x1 a' T' x2 -> ctx_add x (a ++ a') (T ++ T') x2.
  Proof.
    intros [pre ts T1 H1|pre c L a1 T1 Hc] H2; inversion H2; subst.
    - rewrite <- app_assoc. constructor. by apply Forall2_app.
    - rewrite give_app by by rewrite give_length. rewrite give_give, <- app_assoc, app_length, give_length. rewrite <- flats_app.
      by constructor.
  Qed.

  (** *** Operations *)

  Lemma tree_at_last pre t c ws h : tree_at (length pre, c) (PState ws (pre ++ [t]) h) = @Ok (optree E) t.
  Proof.
    unfold tree_at. cbn [fst ops]. rewrite app_length. cbn [length]. destruct (S (length pre) =? length pre + 1) eqn:E1; [|lia].
    unfold rget. by rewrite lookup_app_r, Nat.sub_diag by lia.
  Qed.

  Lemma set_tree_last pre t t' c ws h :
    set_tree (length pre, c) t' (PState ws (pre ++ [t]) h) = (PState ws (pre ++ [t']) h : pstate E).
  Proof.
    unfold set_tree. cbn [fst ops rest help]. f_equal. replace (length pre) with (length pre + 0) at 1 by lia. by rewrite insert_app_r.
  Qed.

  Lemma root_weight_last pre t L c p w ws h : holds t L -> L !! c = Some (p, w) ->
    root_weight (length pre, c) (PState ws (pre ++ [t]) h) = Ok w.
  Proof.
    intros (_ & Hw & _) Hc. unfold root_weight. rewrite tree_at_last. cbn [rbind snd]. unfold rget. by rewrite Hw, list_lookup_fmap, Hc.
  Qed.

  Lemma num_args_ok top cur ops x n (a : nat * nat) ws h : ctx_ok top cur ops x n -> oper cur = Some a ->
    num_args a (PState ws ops h) = Ok n.
  Proof.
    destruct x as [pre|pre c L]; cbn; [intros (_ & -> & _); done|].
    intros (_ & -> & t & p & w & -> & Hh & Hc & Hn) [= <-]. unfold num_args. rewrite (root_weight_last pre t L c p w ws h Hh Hc).
    cbn. by rewrite Hn.
  Qed.

  Lemma started_ok top cur ops x n o : ctx_ok top cur ops x n -> (top = true -> bound o = true) ->
    exists cur' ops1 pre c L,
      (forall ws h, process_option o cur top (PState ws ops h) = Ok (cur', PState ws ops1 h))
      /\ ctx_ok false cur' ops1 (CNest pre c L) (if bound o then 0 else n)
      /\ saturated cur' = (if bound o then 0 else n)
      /\ forall a T cur2 ops2 x1 n2, ctx_add (CNest pre c L) a T x1 -> ctx_ok false cur2 ops2 x1 n2 ->
           exists x2, ctx_add x (if bound o then [] else a) (if bound o then [OTree (started o a) T] else T) x2
             /\ ctx_ok top cur ops2 x2 (n + length (if bound o then [] else a)).
  Proof.
    destruct x as [pre|pre c L]; cbn [ctx_ok].
    - intros (-> & Hcur & ->) Hb. specialize (Hb eq_refl). exists (OpData (Some (length pre, 0)) 0), (pre ++ [WGraph [[]] [started o []]]), pre, 0, [(None, started o [])].
      rewrite Hb. split; [intros ws h; unfold process_option; by rewrite Hb|]. split.
      { split; [done|]. split; [done|]. eexists _, _, _. split; [done|]. split; [apply holds_root|]. done. }
      split; [done|]. intros a T cur2 ops2 x1 n2 Hadd Hok. inversion Hadd; subst. destruct Hok as (_ & _ & t & p & w & -> & Hh & _).
      exists (CTop (pre ++ [t])). split.
      + constructor. constructor; [|constructor]. rewrite flat_node. exact Hh.
      + done.
    - intros (-> & Hcur & t & p & w & -> & Hh & Hc & Hn) _. assert (Hlt : c < length L) by by apply lookup_lt_Some in Hc.
      destruct (bound o) eqn:Hb.
      + destruct (add_node_holds t L c (started o []) Hh Hlt) as (t' & Ht' & Hh').
        exists (OpData (Some (length pre, length L)) 0), (pre ++ [t']), pre, (length L), (L ++ [(Some c, started o [])]). split.
        { intros ws h. unfold process_option. rewrite Hb, Hcur. cbn [Model.ops]. assert (Hne : exists y ys, pre ++ [t] = y :: ys).
          { destruct pre as [|y ys]; [by exists t, []|by exists y, (ys ++ [t])]. }
          destruct Hne as (y & ys & Hne). rewrite Hne. rewrite <- Hne. rewrite tree_at_last. cbn [rbind snd]. unfold started in Ht'. rewrite Ht'. cbn [fst].
          by rewrite set_tree_last. }
        split.
        { split; [done|]. split; [done|]. eexists _, _, _. split; [done|]. split; [exact Hh'|]. rewrite lookup_app_r, Nat.sub_diag by lia. done. }
        split; [done|]. intros a T cur2 ops2 x1 n2 Hadd Hok. inversion Hadd; subst. destruct Hok as (_ & _ & t2 & p2 & w2 & -> & Hh2 & _).
        eexists. split; [by constructor|]. rewrite give_nil. rewrite flats_one, flat_node. cbn [length]. rewrite Nat.add_0_r. split; [done|]. split; [done|].
        exists t2, p, w. split; [done|]. split; [|split; [by rewrite lookup_app_l|done]].
        assert (Hg : give (length L) a (L ++ [(Some c, started o [])]) = L ++ [(Some c, started o a)]).
        { unfold give. apply list_eq. intros i. destruct (decide (i = length L)) as [->|Hne].
          - rewrite list_lookup_alter, !lookup_app_r, Nat.sub_diag by lia. done.
          - rewrite list_lookup_alter_ne by done. destruct (decide (i < length L)); [by rewrite !lookup_app_l by lia|].
            rewrite !lookup_ge_None_2; [done| |]; rewrite app_length; cbn; lia. }
        rewrite Hg, <- app_assoc, app_length in Hh2. cbn [length app] in Hh2. by rewrite Nat.add_1_r in Hh2.
      + exists (OpData (Some (length pre, c)) n), (pre ++ [t]), pre, c, L. split.
        { intros ws h. unfold process_option. rewrite Hb, Hcur. cbn [Model.ops]. assert (Hne : exists y ys, pre ++ [t] = y :: ys).
          { destruct pre as [|y ys]; [by exists t, []|by exists y, (ys ++ [t])]. }
          destruct Hne as (y & ys & Hne). rewrite Hne. rewrite <- Hne. unfold num_args. rewrite (root_weight_last pre t L c p w ws h Hh Hc). cbn.
          by rewrite Hn. }
        split.
        { split; [done|]. split; [done|]. by exists t, p, w. }
        split; [done|]. intros a T cur2 ops2 x1 n2 Hadd Hok. exists x1. split; [done|]. inversion Hadd; subst.
        destruct Hok as (_ & _ & t2 & p2 & w2 & -> & Hh2 & Hc2 & _). split; [done|]. split; [done|]. exists t2, p, (with_args a w). split; [done|].
        split; [done|]. split.
        * rewrite lookup_app_l by by rewrite give_length. unfold give. by rewrite list_lookup_alter, Hc.
        * cbn. by rewrite app_length.
  Qed.

  (** Options without arguments. *)
  Definition leaf o : otree E := OTree (started o []) [].

  Lemma started_leaf top cur ops x n o : ctx_ok top cur ops x n -> (top = true -> bound o = true) ->
    exists cur' ops1 x1, (forall ws h, process_option o cur top (PState ws ops h) = Ok (cur', PState ws ops1 h))
      /\ ctx_add x [] (map leaf (filter (fun o => bound o = true) [o])) x1 /\ ctx_ok top cur ops1 x1 n.
  Proof.
    intros Hok Hb. destruct (started_ok top cur ops x n o Hok Hb) as (cur' & ops1 & pre & c & L & Hp & Hok1 & _ & Hdone).
    exists cur', ops1. destruct (Hdone [] [] cur' ops1 (CNest pre c L) (if bound o then 0 else n)) as (x2 & Hadd & Hok2); [by eapply ctx_add_nil|done|].
    exists x2. split; [done|]. rewrite filter_cons, filter_nil. destruct (bound o) eqn:Eb.
    - rewrite decide_True by done. cbn in *. rewrite Nat.add_0_r in Hok2. done.
    - rewrite decide_False by done. cbn in *. by rewrite Nat.add_0_r in Hok2.
  Qed.

  Lemma process_option_logic o cur ws ops h : bound o = false -> process_option o cur true (PState ws ops h) = Throw LogicError.
  Proof. intros Hb. unfold process_option. by rewrite Hb. Qed.

  (** *** Several aliases in one word *)

  Fixpoint scan os (cs : text) : bool * list (opt E) :=
    match cs with
    | [] => (true, [])
    | c :: cs =>
        if bool_decide (c = dash) then scan os cs
        else match find_opt (fun o => is_alias o [dash; c]) os with
             | None => (false, [])
             | Some o => let p := scan os cs in (p.1, o :: p.2)
             end
    end.

  Lemma scan_true os cs gs : scan os cs = (true, gs) <-> Forall2 (stands_for os) (filter (fun c => c <> dash) cs) gs.
  Proof.
    revert gs. induction cs as [|c cs IH]; intros gs; cbn [scan].
    - rewrite filter_nil. split; [intros [= <-]; constructor|]. by inversion 1.
    - rewrite filter_cons. destruct (bool_decide_reflect (c = dash)) as [->|Hc].
      + rewrite decide_False by tauto. apply IH.
      + rewrite decide_True by done. destruct (find_opt _ os) as [o|] eqn:Ef.
        * assert (Ho : stands_for os c o) by by apply (find_opt_some _ _ os o (is_alias_in [dash; c])). destruct (scan os cs) as [b gs'] eqn:Es. cbn. split.
          -- intros [= -> <-]. constructor; [done|]. by apply IH.
          -- intros H. inversion H as [|? o' ? gs2 Ho' Hgs]; subst. apply (find_opt_some _ _ os o' (is_alias_in [dash; c])) in Ho'. rewrite Ef in Ho'.
             injection Ho' as ->. apply IH in Hgs. injection Hgs as -> ->. done.
        * split; [done|]. intros H. inversion H as [|? o' ? gs2 Ho' Hgs]; subst. apply (find_opt_some _ _ os o' (is_alias_in [dash; c])) in Ho'. congruence.
  Qed.

  Lemma scan_false os cs gs : scan os cs = (false, gs) <->
    exists cs1 c cs2, filter (fun c => c <> dash) cs = cs1 ++ c :: cs2 /\ Forall2 (stands_for os) cs1 gs
       /\ Forall (fun o => [dash; c] ∉ o_aliases o) os.
  Proof.
    revert gs. induction cs as [|c cs IH]; intros gs; cbn [scan].
    - rewrite filter_nil. split; [done|]. intros (cs1 & c & cs2 & H & _). by destruct cs1.
    - rewrite filter_cons. destruct (bool_decide_reflect (c = dash)) as [->|Hc].
      + rewrite decide_False by tauto. apply IH.
      + rewrite decide_True by done. destruct (find_opt _ os) as [o|] eqn:Ef.
        * assert (Ho : stands_for os c o) by by apply (find_opt_some _ _ os o (is_alias_in [dash; c])). destruct (scan os cs) as [b gs'] eqn:Es. cbn. split.
          -- intros [= -> <-]. destruct (proj1 (IH gs') eq_refl) as (cs1 & c' & cs2 & Heq & Hgs & Hn). exists (c :: cs1), c', cs2.
             split; [by rewrite Heq|]. split; [by constructor|done].
          -- intros (cs1 & c' & cs2 & Heq & Hgs & Hn). destruct cs1 as [|c1 cs1]; cbn in Heq; injection Heq as <- Heq.
             { exfalso. destruct Ho as (os1 & os2 & -> & Ho & _). rewrite Forall_app in Hn. destruct Hn as [_ Hn]. inversion Hn; subst. tauto. }
             inversion Hgs as [|? o' ? gs2 Ho' Hgs']; subst. apply (find_opt_some _ _ os o' (is_alias_in [dash; c])) in Ho'. rewrite Ef in Ho'.
             injection Ho' as ->. assert (Hs : (b, gs') = (false, gs2)) by (apply IH; by exists cs1, c', cs2). by injection Hs as -> ->.
        * split.
          -- intros [= <-]. exists [], c, (filter (fun c => c <> dash) cs). split; [done|]. split; [constructor|].
             by apply (find_opt_none _ _ os (is_alias_in [dash; c])).
          -- intros (cs1 & c' & cs2 & Heq & Hgs & Hn). destruct cs1 as [|c1 cs1]; [by inversion Hgs|]. cbn in Heq. injection Heq as <- Heq.
             inversion Hgs as [|? o' ? gs2 Ho' Hgs']; subst. apply (find_opt_some _ _ os o' (is_alias_in [dash; c])) in Ho'. congruence.
  Qed.

  Lemma scan_elem os cs b gs o : scan os cs = (b, gs) -> o ∈ gs -> o ∈ os.
  Proof.
    revert b gs. induction cs as [|c cs IH]; intros b gs; cbn [scan]; [intros [= <- <-]; by intros ?%elem_of_nil|].
    destruct (bool_decide _); [apply IH|]. destruct (find_opt _ os) as [o'|] eqn:Ef; [|intros [= <- <-]; by intros ?%elem_of_nil].
    destruct (scan os cs) as [b' gs'] eqn:Es. intros [= <- <-]. intros [->|H]%elem_of_cons; [|by eapply IH].
    apply (find_opt_some _ _ os o' (is_alias_in [dash; c])) in Ef. by apply first_of_elem in Ef as [? _].
  Qed.

  Lemma group_loop_ok os cs top cur ops x n b gs : ctx_ok top cur ops x n -> scan os cs = (b, gs) ->
    (top = true -> Forall (fun o => bound o = true) gs) ->
    exists ops1 x1, (forall ws h, group_loop os cs cur top (PState ws ops h) = Ok (b, PState ws ops1 h))
      /\ ctx_add x [] (map leaf (filter (fun o => bound o = true) gs)) x1 /\ ctx_ok top cur ops1 x1 n.
  Proof.
    revert ops x gs. induction cs as [|c cs IH]; intros ops x gs Hok; cbn [scan group_loop].
    - intros [= <- <-] _. exists ops, x. split; [done|]. split; [by eapply ctx_add_nil|done].
    - destruct (bool_decide (c = dash)); [by apply IH|]. destruct (find_opt _ os) as [o|] eqn:Ef.
      + destruct (scan os cs) as [b' gs'] eqn:Es. cbn. intros [= <- <-] Hb.
        destruct (started_leaf top cur ops x n o Hok) as (cur' & ops1 & x1 & Hp & Hadd & Hok1); [intros ->; by specialize (Hb eq_refl); inversion Hb|].
        destruct (IH ops1 x1 gs' Hok1 eq_refl) as (ops2 & x2 & Hl & Hadd2 & Hok2); [intros ->; by specialize (Hb eq_refl); inversion Hb|].
        exists ops2, x2. split; [intros ws h; rewrite Hp; cbn; apply Hl|]. split; [|done].
        change (o :: gs') with ([o] ++ gs'). rewrite filter_app, map_app. by apply (ctx_add_app _ [] _ x1 []).
      + intros [= <- <-] _. exists ops, x. split; [done|]. split; [by eapply ctx_add_nil|done].
  Qed.

  Lemma group_loop_logic os cs cur ops ws h b gs : ctx_ok true cur ops (CTop ops) 0 -> scan os cs = (b, gs) ->
    ~ Forall (fun o => bound o = true) gs -> group_loop os cs cur true (PState ws ops h) = Throw LogicError.
  Proof.
    revert ops gs. induction cs as [|c cs IH]; intros ops gs Hok; cbn [scan group_loop].
    - intros [= <- <-] []. constructor.
    - destruct (bool_decide (c = dash)); [by apply IH|]. destruct (find_opt _ os) as [o|] eqn:Ef; [|intros [= <- <-] []; constructor].
      destruct (scan os cs) as [b' gs'] eqn:Es. cbn [fst snd]. intros [= <- <-] Hb. destruct (bound o) eqn:Eb; [|by rewrite process_option_logic].
      unfold process_option. rewrite Eb. cbn [rbind snd rest Model.ops Model.help]. apply (IH _ gs'); [|done|].
      + destruct Hok as (? & ? & ?). by split.
      + intros H. apply Hb. by constructor.
  Qed.

  (** What a compound word stands for. *)
  Definition scan_word os (w : text) : bool * list (opt E) :=
    match w with
    | c0 :: (c1 :: _) as cs =>
        if bool_decide (c0 = dash) && (bool_decide (c1 = space) || bool_decide (c1 = dash)) then (false, []) else scan os cs
    | _ => (false, [])
    end.

  Lemma compound_dec (w : text) : Decision (compound w).
  Proof.
    destruct w as [|c0 [|c1 cs]]; [right; by intros (? & ? & ? & ? & _)..|].
    destruct (decide (c0 = dash /\ (c1 = space \/ c1 = dash))) as [H|H].
    - right. intros (? & ? & ? & [= <- <- <-] & Hn). done.
    - left. by exists c0, c1, cs.
  Qed.

  Lemma scan_word_compound os w : compound w -> scan_word os w = scan os (tail w).
  Proof.
    intros (c0 & c1 & cs & -> & Hn). cbn [scan_word tail].
    destruct (bool_decide_reflect (c0 = dash)), (bool_decide_reflect (c1 = space)), (bool_decide_reflect (c1 = dash)); cbn [andb orb]; try done; tauto.
  Qed.

  Lemma scan_word_not os w : ~ compound w -> scan_word os w = (false, []).
  Proof.
    intros H. destruct w as [|c0 [|c1 cs]]; [done..|]. cbn [scan_word].
    destruct (bool_decide_reflect (c0 = dash)), (bool_decide_reflect (c1 = space)), (bool_decide_reflect (c1 = dash)); cbn [andb orb]; try done;
      exfalso; apply H; exists c0, c1, cs; (split; [done|]); tauto.
  Qed.

  Lemma scan_word_true os w gs : scan_word os w = (true, gs) <-> stand_for os w gs.
  Proof.
    unfold stand_for, letters. destruct (compound_dec w) as [H|H].
    - rewrite scan_word_compound by done. rewrite scan_true. tauto.
    - rewrite scan_word_not by done. split; [done|tauto].
  Qed.

  Lemma scan_word_false os w gs : scan_word os w = (false, gs) <-> given_up os w gs.
  Proof.
    unfold given_up, letters. destruct (compound_dec w) as [H|H].
    - rewrite scan_word_compound by done. rewrite scan_false. tauto.
    - rewrite scan_word_not by done. split; [intros [= <-]; by left|]. intros [[_ ->]|[? _]]; done.
  Qed.

  Lemma group_ok os w top cur ops x n b gs : ctx_ok top cur ops x n -> scan_word os w = (b, gs) ->
    (top = true -> Forall (fun o => bound o = true) gs) ->
    exists ops1 x1, (forall ws h, process_group os w cur top (PState ws ops h) = Ok (b, PState ws ops1 h))
      /\ ctx_add x [] (map leaf (filter (fun o => bound o = true) gs)) x1 /\ ctx_ok top cur ops1 x1 n.
  Proof.
    intros Hok Hs Hb. destruct w as [|c0 [|c1 cs]]; cbn [scan_word process_group] in *.
    1,2: injection Hs as <- <-; exists ops, x; split; [done|]; split; [by eapply ctx_add_nil|done].
    destruct (bool_decide _ && _).
    - injection Hs as <- <-. exists ops, x. split; [done|]. split; [by eapply ctx_add_nil|done].
    - by apply group_loop_ok.
  Qed.

  Lemma group_logic os w cur ops ws h b gs : ctx_ok true cur ops (CTop ops) 0 -> scan_word os w = (b, gs) ->
    ~ Forall (fun o => bound o = true) gs -> process_group os w cur true (PState ws ops h) = Throw LogicError.
  Proof.
    intros Hok Hs Hb. destruct w as [|c0 [|c1 cs]]; cbn [scan_word process_group] in *.
    1,2: injection Hs as <- <-; destruct Hb; constructor.
    destruct (bool_decide _ && _); [injection Hs as <- <-; destruct Hb; constructor|]. by eapply group_loop_logic.
  Qed.

  (** *** Arguments *)

  Definition enter (fuel : nat) o cur (st : pstate E) : res (pstate E) :=
    match help st, o_children o with
    | [], _ :: _ => parse_loop fuel (o_children o) cur false None cur st
    | _, _ => Ok st
    end.

  Lemma add_argument_ok cur ops pre c L m o arg : ctx_ok false cur ops (CNest pre c L) m ->
    m < length (o_params o) + saturated cur ->
    exists ops', ctx_ok false cur ops' (CNest pre c (give c [arg] L)) (m + 1) /\ oper cur = Some (length pre, c) /\
      forall ws h, add_argument o arg cur (length pre, c) (PState ws ops h) = Ok (Go o cur (PState ws ops' h)).
  Proof.
    intros Hok Hm. pose proof (num_args_ok false cur ops (CNest pre c L) m (length pre, c)) as Hna. cbn [ctx_ok] in Hok.
    destruct Hok as (_ & Hcur & t & p & w & -> & Hh & Hc & Hn).
    exists (pre ++ [WGraph (edges t) (alter (with_args [arg]) c (weights t))]). split.
    { split; [done|]. split; [done|]. eexists _, p, (with_args [arg] w). split; [done|]. split; [by apply holds_give|]. split.
      - unfold give. by rewrite list_lookup_alter, Hc.
      - cbn. rewrite app_length. cbn. lia. }
    split; [done|]. intros ws h. unfold add_argument. rewrite Hna; [|split; [done|]; split; [done|]; by exists t, p, w|done]. cbn [rbind].
    destruct (m <? length (o_params o) + saturated cur) eqn:E1; [|lia]. rewrite tree_at_last. cbn [rbind snd].
    assert (Hlt : c < length (weights t)) by (destruct Hh as (_ & -> & _); rewrite map_length; by apply lookup_lt_Some in Hc).
    assert (Hwc : weights t !! c = Some w) by (destruct Hh as (_ & -> & _); by rewrite list_lookup_fmap, Hc).
    unfold mutate_node_weight_w. destruct (c =? length (weights t)) eqn:E2; [lia|]. rewrite Hwc. rewrite set_tree_last.
    do 6 f_equal. apply list_eq. intros i. destruct (decide (i = c)) as [->|Hne].
    - rewrite list_lookup_insert by done. by rewrite list_lookup_alter, Hwc.
    - by rewrite list_lookup_insert_ne, list_lookup_alter_ne.
  Qed.

  Lemma ctx_ok_num cur ops x n (a : nat * nat) ws h : ctx_ok false cur ops x n -> oper cur = Some a -> num_args a (PState ws ops h) = Ok n.
  Proof. by apply num_args_ok. Qed.

  Lemma collect args : forall fuel os prev top o cur ops pre c L m,
    ctx_ok false cur ops (CNest pre c L) m -> args <> [] -> m + length args = length (o_params o) + saturated cur -> length args <= fuel ->
    exists ops', ctx_ok false cur ops' (CNest pre c (give c args L)) (m + length args) /\ forall ws h,
      parse_loop fuel os prev top (Some o) cur (PState (args ++ ws) ops h) =
      (let? st := enter (fuel - length args) o cur (PState ws ops' h) in parse_loop (fuel - length args) os prev top None prev st).
  Proof.
    induction args as [|x args IH]; intros fuel os prev top o cur ops pre c L m Hok Hne Hm Hf; [done|]. clear Hne.
    cbn [length] in *. destruct fuel as [|fuel]; [lia|].
    destruct (add_argument_ok cur ops pre c L m o x Hok ltac:(lia)) as (ops1 & Hok1 & Hcur & Hadd).
    destruct args as [|y args].
    - exists ops1. split; [exact Hok1|]. intros ws h. cbn [app parse_loop rest]. rewrite Hcur. unfold set_rest. cbn [Model.ops Model.help rest].
      rewrite Hadd. cbn [rbind]. rewrite Hcur. rewrite (ctx_ok_num _ _ _ _ _ ws h Hok1 Hcur). cbn [rbind].
      destruct (m + 1 =? length (o_params o) + saturated cur) eqn:E1; [|cbn in Hm; lia]. cbn [length]. rewrite Nat.sub_succ, Nat.sub_0_r. done.
    - destruct (IH fuel os prev top o cur ops1 pre c (give c [x] L) (m + 1) Hok1) as (ops2 & Hok2 & Hp); [done|cbn in *; lia|cbn in *; lia|].
      exists ops2. split.
      + rewrite give_give in Hok2. cbn [app] in Hok2. replace (m + S (length (y :: args))) with (m + 1 + length (y :: args)) by lia. exact Hok2.
      + intros ws h. cbn [app]. cbn [parse_loop rest]. rewrite Hcur. unfold set_rest. cbn [Model.ops Model.help rest].
        rewrite Hadd. cbn [rbind]. rewrite Hcur. rewrite (ctx_ok_num _ _ _ _ _ _ h Hok1 Hcur). cbn [rbind].
        destruct (m + 1 =? length (o_params o) + saturated cur) eqn:E1; [cbn in Hm; lia|]. rewrite Nat.sub_succ. apply Hp.
  Qed.

  Lemma collect_short args : forall fuel os prev top o cur ops pre c L m,
    ctx_ok false cur ops (CNest pre c L) m -> m + length args < length (o_params o) + saturated cur -> length args <= fuel ->
    exists ops', ctx_ok false cur ops' (CNest pre c (give c args L)) (m + length args) /\ forall h,
      parse_loop fuel os prev top (Some o) cur (PState args ops h) =
      (if m + length args =? length (o_params o) then Ok (PState [] ops' h) else Throw RuntimeError).
  Proof.
    induction args as [|x args IH]; intros fuel os prev top o cur ops pre c L m Hok Hm Hf.
    - exists ops. rewrite give_nil, Nat.add_0_r. split; [done|]. intros h.
      assert (Hl : parse_loop fuel os prev top (Some o) cur (PState [] ops h) = end_check (Some o) cur (PState [] ops h)) by by destruct fuel.
      rewrite Hl. unfold end_check. cbn [Model.ops]. destruct Hok as (_ & Hcur & Hok). rewrite Hcur.
      rewrite (ctx_ok_num cur ops (CNest pre c L) m (length pre, c) [] h) by done. cbn [rbind].
      destruct Hok as (t & p & w & -> & _). destruct pre; done.
    - cbn [length] in *. destruct fuel as [|fuel]; [lia|].
      destruct (add_argument_ok cur ops pre c L m o x Hok ltac:(lia)) as (ops1 & Hok1 & Hcur & Hadd).
      destruct (IH fuel os prev top o cur ops1 pre c (give c [x] L) (m + 1) Hok1) as (ops2 & Hok2 & Hp); [lia|lia|].
      rewrite give_give in Hok2. exists ops2. replace (m + S (length args)) with (m + 1 + length args) by lia. split; [exact Hok2|].
      intros h. cbn [parse_loop rest]. rewrite Hcur. unfold set_rest. cbn [Model.ops Model.help rest].
      rewrite Hadd. cbn [rbind]. rewrite Hcur. rewrite (ctx_ok_num _ _ _ _ _ _ h Hok1 Hcur). cbn [rbind].
      destruct (m + 1 =? length (o_params o) + saturated cur) eqn:E1; [lia|]. apply Hp.
  Qed.
End parse.
