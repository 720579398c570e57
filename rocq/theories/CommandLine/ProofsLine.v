From Coq Require Import Ascii.
From stdpp Require Import list list_numbers.
From Verif.Base Require Import Outcome ListLemmas.
From Verif.Text Require Import Model.
From Verif.Graph Require Import Model ModelWeighted ModelTree.
From Verif.CommandLine Require Import Model Spec ProofsTree ProofsParse ProofsHelp.
Local Open Scope res_scope.

Scheme reads_ind2 := Minimality for reads Sort Prop with below_ind2 := Minimality for below Sort Prop.
Combined Scheme reads_below_ind from reads_ind2, below_ind2.

Section line.
  Context {E : Type}.
  Implicit Types o : opt E.
  Implicit Types os gs : list (opt E).
  Implicit Types L : list (option nat * operation E).
  Implicit Types T : list (otree E).
  Implicit Types args ws : list text.
  Implicit Types cur prev : opdata.
  Implicit Types ops : list (optree E).

  Lemma parse_loop_nil fuel os prev top ops h :
    parse_loop fuel os prev top None prev (PState [] ops h) = Ok (PState [] ops h).
  Proof. destruct fuel; cbn; unfold end_check; by destruct ops. Qed.

  Lemma loop_word fuel os prev top ops x n w ws h : ctx_ok top prev ops x n ->
    parse_loop (S fuel) os prev top None prev (PState (w :: ws) ops h) =
    (let? f := expect_option os w prev top (PState ws ops h) in
     match f with
     | Continue st => parse_loop fuel os prev top None prev st
     | Return st => Ok st
     | Go o cur st =>
         match oper cur with
         | None => Throw LogicError
         | Some a =>
             let? n := num_args a st in
             if n =? length (o_params o) + saturated cur then
               let? st := enter fuel o cur st in parse_loop fuel os prev top None prev st
             else parse_loop fuel os prev top (Some o) cur st
         end
     end).
  Proof. intros _. cbn [parse_loop rest]. unfold set_rest. cbn [Model.ops Model.help]. by destruct (oper prev). Qed.

  Lemma bound_meaning o w args sub :
    (if bound o then [] else args ++ args_of sub) = (meaning (Use o w args sub)).1
    /\ (if bound o then [OTree (started o (args ++ args_of sub)) (trees_of sub)] else trees_of sub) = (meaning (Use o w args sub)).2.
  Proof. cbn [meaning]. by destruct (bound o). Qed.

  Lemma option_found os w prev top ops ws h o cur ops1 : w <> [] -> first_of (fun o => spelt o w) os o ->
    process_option o prev top (PState ws ops h) = Ok (cur, PState ws ops1 h) ->
    expect_option os w prev top (PState ws ops h) = Ok (Go o cur (PState ws ops1 h)).
  Proof.
    intros Hw Ho Hp. unfold expect_option. rewrite bool_decide_false by done. apply (find_opt_some _ _ os o (named_spelt w)) in Ho.
    by rewrite Ho, Hp.
  Qed.

  (** An option with its arguments. *)
  Lemma use_step fuel os prev top ops x n o w args : ctx_ok top prev ops x n -> w <> [] -> first_of (fun o => spelt o w) os o ->
    (top = true -> bound o = true) -> length args = length (o_params o) -> length args <= fuel ->
    exists cur ops1 x1, ctx_ok false cur ops1 x1 (if bound o then length args else n + length args)
      /\ (forall ws h, parse_loop (S fuel) os prev top None prev (PState (w :: args ++ ws) ops h) =
            (let? st := enter (fuel - length args) o cur (PState ws ops1 h) in
             parse_loop (fuel - length args) os prev top None prev st))
      /\ forall a T cur2 ops2 x2 n2, ctx_add x1 a T x2 -> ctx_ok false cur2 ops2 x2 n2 ->
           exists x3, ctx_add x (if bound o then [] else args ++ a) (if bound o then [OTree (started o (args ++ a)) T] else T) x3
             /\ ctx_ok top prev ops2 x3 (n + length (if bound o then [] else args ++ a)).
  Proof.
    intros Hok Hw Ho Hb Hl Hf. destruct (started_ok top prev ops x n o Hok Hb) as (cur & ops1 & pre & c & L & Hp & Hok1 & Hsat & Hdone).
    destruct args as [|y args].
    - cbn [length app] in *. exists cur, ops1, (CNest pre c L). split; [by destruct (bound o); rewrite ?Nat.add_0_r|]. split; [|exact Hdone].
      intros ws h. rewrite (loop_word fuel os prev top ops x n w ws h Hok). rewrite (option_found os w prev top ops ws h o cur ops1 Hw Ho (Hp ws h)).
      cbn [rbind]. destruct Hok1 as (H1 & Hcur & H2). rewrite Hcur.
      rewrite (num_args_ok false cur ops1 (CNest pre c L) (if bound o then 0 else n) (length pre, c) ws h) by done. cbn [rbind].
      rewrite <- Hl, Hsat, Nat.add_0_l, Nat.eqb_refl, Nat.sub_0_r. done.
    - destruct (collect (y :: args) fuel os prev top o cur ops1 pre c L (if bound o then 0 else n) Hok1) as (ops2 & Hok2 & Hc); [done|rewrite Hsat; lia|done|].
      exists cur, ops2, (CNest pre c (give c (y :: args) L)). split; [by destruct (bound o); rewrite ?Nat.add_0_l in Hok2|].
      assert (Hcur : oper cur = Some (length pre, c)) by (by destruct Hok1 as (_ & ? & _)). split.
      + intros ws h. rewrite (loop_word fuel os prev top ops x n w _ h Hok). rewrite (option_found os w prev top ops _ h o cur ops1 Hw Ho (Hp _ h)).
        cbn [rbind]. rewrite Hcur. rewrite (num_args_ok false cur ops1 (CNest pre c L) (if bound o then 0 else n) (length pre, c) _ h Hok1 Hcur). cbn [rbind].
        destruct ((if bound o then 0 else n) =? length (o_params o) + saturated cur) eqn:E1; [|apply Hc].
        rewrite <- Hl, Hsat in E1. cbn in E1. destruct (bound o); lia.
      + intros a T cur2 ops3 x2 n2 Hadd Hok3. apply (Hdone (y :: args ++ a) T cur2 ops3 x2 n2); [|done].
        change (y :: args ++ a) with ((y :: args) ++ a). change T with ([] ++ T).
        assert (Hlt : c < length L) by (destruct Hok1 as (_ & _ & ? & ? & ? & _ & _ & Hlk & _); by apply lookup_lt_Some in Hlk).
        pose proof (add_nest pre c L (y :: args) [] Hlt) as Hadd1. cbn [flats] in Hadd1. rewrite app_nil_r in Hadd1. by eapply ctx_add_app.
  Qed.

  (** An option without all of its arguments. *)
  Lemma short_step fuel os prev top ops x n o w args : ctx_ok top prev ops x n -> w <> [] -> first_of (fun o => spelt o w) os o ->
    (top = true -> bound o = true) -> length args < length (o_params o) -> length args <= fuel ->
    exists cur ops1 x1, ctx_ok false cur ops1 x1 (if bound o then length args else n + length args)
      /\ (forall h, parse_loop (S fuel) os prev top None prev (PState (w :: args) ops h) =
            (if (if bound o then length args else n + length args) =? length (o_params o) then Ok (PState [] ops1 h) else Throw RuntimeError))
      /\ (bound o = false -> exists x3, ctx_add x args [] x3 /\ ctx_ok top prev ops1 x3 (n + length args)).
  Proof.
    intros Hok Hw Ho Hb Hl Hf. destruct (started_ok top prev ops x n o Hok Hb) as (cur & ops1 & pre & c & L & Hp & Hok1 & Hsat & Hdone).
    destruct (collect_short args fuel os prev top o cur ops1 pre c L (if bound o then 0 else n) Hok1) as (ops2 & Hok2 & Hc); [rewrite Hsat; lia|done|].
    exists cur, ops2, (CNest pre c (give c args L)). split; [by destruct (bound o); rewrite ?Nat.add_0_l in Hok2|].
    assert (Hcur : oper cur = Some (length pre, c)) by (by destruct Hok1 as (_ & ? & _)). split.
    - intros h. rewrite (loop_word fuel os prev top ops x n w _ h Hok). rewrite (option_found os w prev top ops _ h o cur ops1 Hw Ho (Hp _ h)).
      cbn [rbind]. rewrite Hcur. rewrite (num_args_ok false cur ops1 (CNest pre c L) (if bound o then 0 else n) (length pre, c) _ h Hok1 Hcur). cbn [rbind].
      destruct ((if bound o then 0 else n) =? length (o_params o) + saturated cur) eqn:E1.
      { rewrite Hsat in E1. destruct (bound o); lia. }
      rewrite Hc. by destruct (bound o).
    - intros Hbf. assert (Hlt : c < length L) by (destruct Hok1 as (_ & _ & ? & ? & ? & _ & _ & Hlk & _); by apply lookup_lt_Some in Hlk).
      pose proof (add_nest pre c L args [] Hlt) as Hadd1. cbn [flats] in Hadd1. rewrite app_nil_r in Hadd1.
      destruct (Hdone args [] cur ops2 _ _ Hadd1 Hok2) as (x2 & Hadd2 & Hok3). rewrite Hbf in Hadd2, Hok3. by exists x2.
  Qed.

  (** *** Reading, whatever the line *)

  Definition read_result (top : bool) os prev x n ws (h : text) (r : res (pstate E)) : Prop :=
    match r with
    | Ok st =>
        exists a T x', ctx_add x a T x' /\ ctx_ok top prev (Model.ops st) x' (n + length a) /\ length (rest st) <= length ws
          /\ (h <> [] -> help st <> [])
          /\ (h = [] -> help st = [] -> exists is, reads top os n ws is (rest st) /\ a = args_of is /\ T = trees_of is)
          /\ (h = [] -> help st <> [] -> exists level ws', asks top os n ws level ws')
    | Throw RuntimeError => True
    | Throw LogicError => top = true /\ Exists (fun o => bound o = false) os
    | _ => False
    end.

  Lemma read_result_top prev pre n n' os ws h r : read_result true os prev (CTop pre) n ws h r -> n = n' ->
    read_result true os prev (CTop pre) n' ws h r.
  Proof. by intros ? <-. Qed.

  Lemma leaves_nil top cur ops x n : ctx_ok top cur ops x n -> ctx_add x [] [] x.
  Proof. by apply ctx_add_nil. Qed.

  Lemma reading fuel : forall os prev top ops x n ws h, ctx_ok top prev ops x n -> length ws <= fuel -> os <> [] ->
    read_result top os prev x n ws h (parse_loop fuel os prev top None prev (PState ws ops h)).
  Proof.
    induction (lt_wf fuel) as [fuel _ IH]. intros os prev top ops x n ws h Hok Hf Hos. destruct ws as [|w ws].
    { rewrite parse_loop_nil. exists [], [], x. split; [by eapply ctx_add_nil|]. rewrite Nat.add_0_r. split; [done|]. split; [done|]. split; [done|].
      split; [|by intros -> ?]. intros _ _. exists []. split; [constructor|done]. }
    cbn [length] in Hf. destruct fuel as [|fuel]; [lia|].
    destruct (decide (w = [])) as [->|Hw].
    { rewrite (loop_word fuel os prev top ops x n [] ws h Hok). unfold expect_option. rewrite bool_decide_true by done. cbn [rbind].
      pose proof (IH fuel ltac:(lia) os prev top ops x n ws h Hok ltac:(lia) Hos) as Hr. destruct (parse_loop fuel _ _ _ _ _ _) as [st| [] | | ]; try done.
      destruct Hr as (a & T & x' & Hadd & Hok' & Hle & H1 & H2 & H3). exists a, T, x'. split; [done|]. split; [done|]. split; [cbn; lia|]. split; [done|]. split.
      - intros Hh Hs. destruct (H2 Hh Hs) as (is & Hr & -> & ->). exists (Blank :: is). split; [by constructor|done].
      - intros Hh Hs. destruct (H3 Hh Hs) as (lv & ws' & Ha). exists lv, ws'. by constructor. }
    destruct (find_opt (fun o => named o w) os) as [o|] eqn:Ef.
    - (* an option *)
      pose proof (proj1 (find_opt_some _ _ os o (named_spelt w)) Ef) as Ho.
      destruct (decide (top = true /\ bound o = false)) as [[-> Hbf]|Hb].
      { rewrite (loop_word fuel os prev true ops x n w ws h Hok). unfold expect_option. rewrite bool_decide_false by done. rewrite Ef.
        rewrite process_option_logic by done. cbn. split; [done|]. apply Exists_exists. exists o. split; [|done]. by apply first_of_elem in Ho as [? _]. }
      assert (Hb' : top = true -> bound o = true) by (intros ->; destruct (bound o); [done|tauto]). clear Hb.
      destruct (decide (length (o_params o) <= length ws)) as [Hl|Hl].
      + set (args := take (length (o_params o)) ws). set (ws1 := drop (length (o_params o)) ws).
        assert (Hws : ws = args ++ ws1) by (unfold args, ws1; by rewrite take_drop). assert (Hla : length args = length (o_params o)) by (unfold args; rewrite take_length; lia).
        clearbody args ws1. subst ws. rewrite app_length in Hf. 
        destruct (use_step fuel os prev top ops x n o w args Hok Hw Ho Hb' Hla ltac:(lia)) as (cur & ops1 & x1 & Hok1 & Hstep & Hdone).
        rewrite Hstep. set (m := if bound o then length args else n + length args) in *.
        (* what is nested *)
        assert (Hin : match enter (fuel - length args) o cur (PState ws1 ops1 h) with
          | Ok st => exists a T x2, ctx_add x1 a T x2 /\ ctx_ok false cur (Model.ops st) x2 (m + length a) /\ length (rest st) <= length ws1
              /\ (h <> [] -> help st <> [])
              /\ (h = [] -> help st = [] -> exists is, below o m ws1 is (rest st) /\ a = args_of is /\ T = trees_of is)
              /\ (h = [] -> help st <> [] -> o_children o <> [] /\ exists level ws', asks false (o_children o) m ws1 level ws')
          | Throw RuntimeError => True
          | _ => False end).
        { assert (Hnone : exists a T x2, ctx_add x1 a T x2 /\ ctx_ok false cur ops1 x2 (m + length a) /\ length ws1 <= length ws1
              /\ (h <> [] -> h <> [])
              /\ (h = [] -> h = [] -> o_children o = [] -> exists is, below o m ws1 is ws1 /\ a = args_of is /\ T = trees_of is)
              /\ (h = [] -> h <> [] -> o_children o <> [] /\ exists level ws', asks false (o_children o) m ws1 level ws')).
          { exists [], [], x1. split; [by eapply ctx_add_nil|]. cbn [length]. rewrite Nat.add_0_r. split; [done|]. split; [done|]. split; [done|]. split; [|by intros -> ?].
            intros _ _ Hc. exists []. split; [by constructor|done]. }
          unfold enter. cbn [help]. destruct h as [|hc h].
          - destruct (o_children o) as [|oc ocs] eqn:Ec.
            + destruct Hnone as (a & T & x2 & ? & ? & ? & ? & H4 & ?). exists a, T, x2. cbn [Model.ops rest help]. naive_solver.
            + pose proof (IH (fuel - length args) ltac:(lia) (oc :: ocs) cur false ops1 x1 m ws1 [] Hok1 ltac:(lia) ltac:(done)) as Hr.
              destruct (parse_loop (fuel - length args) _ _ _ _ _ _) as [st| [] | | ]; try done; [|by destruct Hr].
              destruct Hr as (a & T & x' & Hadd & Hok' & Hle & H1 & H2 & H3). exists a, T, x'. split; [done|]. split; [done|]. split; [done|]. split; [done|]. split.
              * intros Hh Hs. destruct (H2 Hh Hs) as (is & Hr & -> & ->). exists is. split; [|done]. constructor; rewrite Ec; done.
              * intros Hh Hs. split; [done|]. by apply H3.
          - destruct Hnone as (a & T & x2 & ? & ? & ? & ? & H4 & ?). exists a, T, x2. cbn [Model.ops rest help]. naive_solver. }
        destruct (enter (fuel - length args) o cur (PState ws1 ops1 h)) as [[ws2 ops2 h2]| [] | | ] eqn:Een; try done; cbn [rbind]. cbn [rest Model.ops help] in Hin.
        destruct Hin as (a & T & x2 & Hadd & Hok2 & Hle & H1 & H2 & H3).
        destruct (Hdone a T cur ops2 x2 _ Hadd Hok2) as (x3 & Hadd3 & Hok3).
        pose proof (IH (fuel - length args) ltac:(lia) os prev top ops2 x3 _ ws2 h2 Hok3 ltac:(lia) Hos) as Hr.
        destruct (parse_loop (fuel - length args) os prev top None prev _) as [st| [] | | ]; try done.
        destruct Hr as (a' & T' & x4 & Hadd4 & Hok4 & Hle4 & H4 & H5 & H6). eexists _, _, x4. split; [eapply ctx_add_app; [exact Hadd3|exact Hadd4]|].
        split; [by rewrite app_length, Nat.add_assoc|]. split; [cbn; rewrite app_length; lia|]. split; [intros Hh; by apply H4, H1|]. split.
        * intros -> Hs. destruct h2 as [|hc h2]; [|exfalso; by apply H4].
          destruct (H2 eq_refl eq_refl) as (sub & Hsub & -> & ->). destruct (H5 eq_refl Hs) as (is & His & -> & ->).
          destruct (bound_meaning o w args sub) as [Hm1 Hm2]. exists (Use o w args sub :: is). split.
          -- apply (reads_use top os n o w args ws1 sub ws2 is (rest st)); try done. by rewrite <- Hm1.
          -- change (args_of (Use o w args sub :: is)) with ((meaning (Use o w args sub)).1 ++ args_of is).
             change (trees_of (Use o w args sub :: is)) with ((meaning (Use o w args sub)).2 ++ trees_of is). by rewrite <- Hm1, <- Hm2.
        * intros -> Hs. destruct h2 as [|hc h2].
          -- destruct (H2 eq_refl eq_refl) as (sub & Hsub & -> & ->). destruct (H6 eq_refl Hs) as (lv & ws' & Ha). exists lv, ws'.
             destruct (bound_meaning o w args sub) as [Hm1 _]. eapply asks_after; try done. by rewrite <- Hm1.
          -- destruct (H3 eq_refl ltac:(done)) as (Hc & lv & ws' & Ha). exists lv, ws'. by eapply asks_below.
      + destruct (short_step fuel os prev top ops x n o w ws Hok Hw Ho Hb' ltac:(lia) ltac:(lia)) as (cur & ops1 & x1 & Hok1 & Hstep & Hdone).
        rewrite Hstep. destruct (bound o) eqn:Eb.
        { destruct (length ws =? length (o_params o)) eqn:E1; [lia|done]. }
        destruct (n + length ws =? length (o_params o)) eqn:E1; [|done]. destruct (Hdone eq_refl) as (x3 & Hadd & Hok3).
        exists ws, [], x3. split; [done|]. split; [done|]. split; [cbn; lia|]. split; [done|]. split; [|by intros -> ?].
        intros _ _. destruct top; [by specialize (Hb' eq_refl)|]. exists [Use o w ws []]. split; [|].
        { cbn [rest]. apply reads_short; try done; lia. }
        unfold args_of, trees_of. cbn [map concat meaning]. rewrite Eb. cbn. by rewrite !app_nil_r.
    - (* no option *)
      pose proof (proj1 (find_opt_none _ _ os (named_spelt w)) Ef) as Hno.
      rewrite (loop_word fuel os prev top ops x n w ws h Hok). unfold expect_option. rewrite bool_decide_false by done. rewrite Ef.
      destruct (bool_decide_reflect (w = help_word)) as [->|Hnh].
      { destruct (generate_help_ok os Hos) as (ht & -> & Hht). cbn [rbind rest Model.ops]. exists [], [], x. split; [by eapply ctx_add_nil|].
        rewrite Nat.add_0_r. split; [done|]. split; [cbn; lia|]. split; [done|]. split; [done|]. intros _ _. exists os, ws. by constructor. }
      destruct (scan_word os w) as [b gs] eqn:Es.
      assert (Hbd : Decision (Forall (fun o => bound o = true) gs)) by apply _.
      destruct (decide (top = true /\ ~ Forall (fun o => bound o = true) gs)) as [[-> Hng]|Hg].
      { destruct x as [pre|pre c L]; [|by destruct Hok]. destruct Hok as (_ & Hcur & ->).
        rewrite (group_logic os w prev pre ws h b gs) by done. cbn. split; [done|]. apply not_Forall_Exists in Hng; [|apply _].
        apply Exists_exists in Hng as (o & Hin & Hbo). apply Exists_exists. exists o. split; [|cbn in Hbo; by apply not_true_is_false in Hbo].
        destruct (compound_dec w) as [Hc|Hc]; [rewrite scan_word_compound in Es by done; by eapply scan_elem|].
        rewrite scan_word_not in Es by done. injection Es as <- <-. by apply elem_of_nil in Hin. }
      assert (Hg' : top = true -> Forall (fun o => bound o = true) gs) by (intros ->; destruct Hbd; [done|tauto]). clear Hg.
      destruct (group_ok os w top prev ops x n b gs Hok Es Hg') as (ops1 & x1 & Hp & Hadd & Hok1). rewrite Hp. cbn [rbind fst snd].
      destruct b; cbn [rbind].
      + cbn [rbind]. apply scan_word_true in Es. pose proof (IH fuel ltac:(lia) os prev top ops1 x1 n ws h Hok1 ltac:(lia) Hos) as Hr.
        destruct (parse_loop fuel _ _ _ _ _ _) as [st| [] | | ]; try done.
        destruct Hr as (a & T & x' & Hadd' & Hok' & Hle & H1 & H2 & H3). eexists a, _, x'. split; [by eapply (ctx_add_app _ [] _ x1 a)|]. split; [done|].
        split; [cbn; lia|]. split; [done|]. split.
        * intros Hh Hs. destruct (H2 Hh Hs) as (is & Hr & -> & ->). exists (Group w gs :: is). split; [by constructor|]. done.
        * intros Hh Hs. destruct (H3 Hh Hs) as (lv & ws' & Ha). exists lv, ws'. by eapply asks_group.
      + apply scan_word_false in Es. destruct top; [done|]. cbn [rest Model.ops help rbind].
        eexists [], _, x1. split; [exact Hadd|]. cbn [length]. rewrite Nat.add_0_r. split; [done|]. split; [done|]. split; [done|]. split; [|by intros -> ?].
        intros _ _. exists [Junk gs]. split; [by constructor|]. unfold args_of, trees_of. cbn. by rewrite app_nil_r.
  Qed.

  (** *** Lines which are read *)

  Lemma reads_show : forall top os n ws is ws', reads top os n ws is ws' -> show is ++ ws' = ws.
  Proof.
    apply (reads_ind2 E (fun top os n ws is ws' => show is ++ ws' = ws) (fun o n ws is ws' => show is ++ ws' = ws)); try done.
    - intros ? ? ? ws is ws' _ <-. done.
    - intros top os n o w args ws sub ws1 is ws' _ _ _ _ _ <- _ <-. unfold show. cbn. by rewrite <- ?app_assoc.
    - intros ? ? ? ? ? ? ? ? _ _ _ _ <-. done.
    - intros. unfold show. cbn. by rewrite !app_nil_r.
  Qed.

  Lemma below_show o n ws is ws' : below o n ws is ws' -> show is ++ ws' = ws.
  Proof. intros [|? ? ? ? ? _ H]; [done|]. by apply reads_show in H. Qed.

  Lemma reads_le top os n ws is ws' : reads top os n ws is ws' -> length ws' <= length ws.
  Proof. intros <-%reads_show. rewrite app_length. lia. Qed.

  Lemma below_le o n ws is ws' : below o n ws is ws' -> length ws' <= length ws.
  Proof. intros <-%below_show. rewrite app_length. lia. Qed.

  Lemma args_of_cons (i : item E) is : args_of (i :: is) = (meaning i).1 ++ args_of is.
  Proof. done. Qed.

  Lemma trees_of_cons (i : item E) is : trees_of (i :: is) = (meaning i).2 ++ trees_of is.
  Proof. done. Qed.

  Lemma loop_group fuel os prev top ops x n w ws h gs : ctx_ok top prev ops x n -> no_option os w -> stand_for os w gs ->
    (top = true -> Forall (fun o => bound o = true) gs) ->
    exists ops1 x1, ctx_add x [] (map leaf (filter (fun o => bound o = true) gs)) x1 /\ ctx_ok top prev ops1 x1 n
      /\ parse_loop (S fuel) os prev top None prev (PState (w :: ws) ops h) = parse_loop fuel os prev top None prev (PState ws ops1 h).
  Proof.
    intros Hok Hno Hs Hg. destruct (group_ok os w top prev ops x n true gs Hok (proj2 (scan_word_true os w gs) Hs) Hg) as (ops1 & x1 & Hp & Hadd & Hok1).
    exists ops1, x1. split; [done|]. split; [done|]. rewrite (loop_word fuel os prev top ops x n w ws h Hok). unfold expect_option.
    destruct Hs as [Hc _]. rewrite (proj2 (find_opt_none _ _ os (named_spelt w)) Hno).
    destruct Hc as (c0 & c1 & cs & -> & Hn). rewrite bool_decide_false by done. rewrite bool_decide_false.
    - rewrite Hp. done.
    - intros [= -> -> _]. apply Hn. by split; [|right].
  Qed.

  Lemma reads_below_parse :
    (forall top os n ws is ws', reads top os n ws is ws' -> forall fuel prev ops x, ctx_ok top prev ops x n -> length ws <= fuel ->
       exists ops' x', parse_loop fuel os prev top None prev (PState ws ops []) = Ok (PState ws' ops' [])
         /\ ctx_add x (args_of is) (trees_of is) x' /\ ctx_ok top prev ops' x' (n + length (args_of is)))
    /\ (forall o n ws is ws', below o n ws is ws' -> forall fuel cur ops x, ctx_ok false cur ops x n -> length ws <= fuel ->
       exists ops' x', enter fuel o cur (PState ws ops []) = Ok (PState ws' ops' [])
         /\ ctx_add x (args_of is) (trees_of is) x' /\ ctx_ok false cur ops' x' (n + length (args_of is))).
  Proof.
    apply reads_below_ind.
    - intros top os n fuel prev ops x Hok _. exists ops, x. rewrite parse_loop_nil. split; [done|]. split; [by eapply ctx_add_nil|].
      cbn. by rewrite Nat.add_0_r.
    - intros top os n ws is ws' _ IH fuel prev ops x Hok Hf. cbn [length] in Hf. destruct fuel as [|fuel]; [lia|].
      destruct (IH fuel prev ops x Hok ltac:(lia)) as (ops' & x' & H1 & H2 & H3). exists ops', x'. split; [|done].
      rewrite (loop_word fuel os prev top ops x n [] ws [] Hok). unfold expect_option. rewrite bool_decide_true by done. done.
    - intros top os n o w args ws sub ws1 is ws' Hw Ho Hb Hl Hbelow IH1 _ IH2 fuel prev ops x Hok Hf.
      cbn [length] in Hf. rewrite app_length in Hf. destruct fuel as [|fuel]; [lia|].
      destruct (use_step fuel os prev top ops x n o w args Hok Hw Ho Hb Hl ltac:(lia)) as (cur & ops1 & x1 & Hok1 & Hstep & Hdone).
      destruct (IH1 (fuel - length args) cur ops1 x1 Hok1 ltac:(lia)) as (ops2 & x2 & He & Hadd & Hok2).
      destruct (Hdone _ _ cur ops2 x2 _ Hadd Hok2) as (x3 & Hadd3 & Hok3). destruct (bound_meaning o w args sub) as [Hm1 Hm2].
      rewrite Hm1, Hm2 in Hadd3. rewrite Hm1 in Hok3. apply below_le in Hbelow.
      destruct (IH2 (fuel - length args) prev ops2 x3 Hok3 ltac:(lia)) as (ops4 & x4 & H1 & H2 & H3). exists ops4, x4.
      rewrite Hstep, He. cbn [rbind]. split; [done|]. rewrite args_of_cons, trees_of_cons. split; [by eapply ctx_add_app|].
      by rewrite app_length, Nat.add_assoc.
    - intros top os n w gs ws is ws' Hno Hs Hg _ IH fuel prev ops x Hok Hf. cbn [length] in Hf. destruct fuel as [|fuel]; [lia|].
      destruct (loop_group fuel os prev top ops x n w ws [] gs Hok Hno Hs Hg) as (ops1 & x1 & Hadd & Hok1 & ->).
      destruct (IH fuel prev ops1 x1 Hok1 ltac:(lia)) as (ops2 & x2 & H1 & H2 & H3). exists ops2, x2. split; [done|].
      rewrite args_of_cons, trees_of_cons. split; [by eapply (ctx_add_app _ [])|done].
    - intros os n w gs ws Hw Hno Hnh Hgu fuel prev ops x Hok Hf. cbn [length] in Hf. destruct fuel as [|fuel]; [lia|].
      rewrite (loop_word fuel os prev false ops x n w ws [] Hok). unfold expect_option. rewrite bool_decide_false by done.
      rewrite (proj2 (find_opt_none _ _ os (named_spelt w)) Hno). rewrite bool_decide_false by done.
      destruct (group_ok os w false prev ops x n false gs Hok (proj2 (scan_word_false os w gs) Hgu) ltac:(done)) as (ops1 & x1 & Hp & Hadd & Hok1).
      rewrite Hp. exists ops1, x1. split; [done|]. rewrite args_of_cons, trees_of_cons. cbn [meaning fst snd args_of trees_of map concat app length]. rewrite app_nil_r, Nat.add_0_r. done.
    - intros os n o w args Hw Ho Hb Hl Hn fuel prev ops x Hok Hf. cbn [length] in Hf. destruct fuel as [|fuel]; [lia|].
      destruct (short_step fuel os prev false ops x n o w args Hok Hw Ho ltac:(done) Hl ltac:(lia)) as (cur & ops1 & x1 & Hok1 & Hstep & Hdone).
      rewrite Hstep, Hb. destruct (Hdone Hb) as (x3 & Hadd3 & Hok3). replace (n + length args =? length (o_params o)) with true by lia.
      exists ops1, x3. split; [done|]. rewrite args_of_cons, trees_of_cons. cbn [meaning]. rewrite Hb. cbn. rewrite !app_nil_r. done.
    - intros o n ws Hc fuel cur ops x Hok _. exists ops, x. unfold enter. rewrite Hc. split; [done|]. split; [by eapply ctx_add_nil|].
      cbn. by rewrite Nat.add_0_r.
    - intros o n ws is ws' Hc _ IH fuel cur ops x Hok Hf. destruct (IH fuel cur ops x Hok Hf) as (ops' & x' & H1 & H2 & H3).
      exists ops', x'. split; [|done]. unfold enter. cbn [help]. by destruct (o_children o).
  Qed.

  (** *** Lines which ask for help *)

  Definition help_result (level : list (opt E)) (ws' : list text) (r : res (pstate E)) : Prop :=
    match r with
    | Ok st => help st <> [] /\ (ws' = [] -> rest st = [] /\ generate_help level = Ok (help st))
    | Throw _ => ws' <> []
    | _ => False
    end.

  Lemma help_follows fuel os prev top x n st ws' level : ctx_ok top prev (Model.ops st) x n -> length (rest st) <= fuel -> os <> [] ->
    help_result level ws' (Ok st) -> help_result level ws' (parse_loop fuel os prev top None prev st).
  Proof.
    destruct st as [ws ops h]. cbn [Model.ops rest help]. intros Hok Hf Hos [Hh Hws]. cbn [rest help] in *. destruct ws as [|w ws].
    - rewrite parse_loop_nil. cbn. done.
    - assert (Hne : ws' <> []) by (intros [H _]%Hws; done). pose proof (reading fuel os prev top ops x n (w :: ws) h Hok Hf Hos) as Hr.
      destruct (parse_loop fuel _ _ _ _ _ _) as [st| [] | | ]; try done. destruct Hr as (a & T & x' & _ & _ & _ & H & _).
      cbn. split; [by apply H|done].
  Qed.

  Lemma asks_parse top os n ws level ws' : asks top os n ws level ws' -> os <> [] ->
    forall fuel prev ops x, ctx_ok top prev ops x n -> length ws <= fuel ->
    help_result level ws' (parse_loop fuel os prev top None prev (PState ws ops [])).
  Proof.
    induction 1 as [top os n ws Hno|top os n ws level ws' _ IH|top os n w gs ws level ws' Hno Hs Hg _ IH
      |top os n o w args ws level ws' Hw Ho Hb Hl Hc _ IH|top os n o w args ws sub ws1 level ws' Hw Ho Hb Hl Hbelow _ IH];
      intros Hos fuel prev ops x Hok Hf; cbn [length] in Hf; (destruct fuel as [|fuel]; [lia|]).
    - rewrite (loop_word fuel os prev top ops x n _ ws [] Hok). unfold expect_option. rewrite bool_decide_false by done.
      rewrite (proj2 (find_opt_none _ _ os (named_spelt help_word)) Hno). rewrite bool_decide_true by done.
      destruct (generate_help_ok os Hos) as (h & Hg & Hh). rewrite Hg. cbn. done.
    - rewrite (loop_word fuel os prev top ops x n [] ws [] Hok). unfold expect_option. rewrite bool_decide_true by done.
      apply (IH Hos fuel prev ops x); [done|lia].
    - destruct (loop_group fuel os prev top ops x n w ws [] gs Hok Hno Hs Hg) as (ops1 & x1 & Hadd & Hok1 & ->).
      apply (IH Hos fuel prev ops1 x1); [done|lia].
    - rewrite app_length in Hf.
      destruct (use_step fuel os prev top ops x n o w args Hok Hw Ho Hb Hl ltac:(lia)) as (cur & ops1 & x1 & Hok1 & Hstep & Hdone).
      rewrite Hstep. unfold enter. cbn [help]. destruct (o_children o) as [|oc ocs] eqn:Ec; [done|].
      specialize (IH ltac:(done) (fuel - length args) cur ops1 x1 Hok1 ltac:(lia)).
      pose proof (reading (fuel - length args) (oc :: ocs) cur false ops1 x1 _ ws [] Hok1 ltac:(lia) ltac:(done)) as Hr.
      destruct (parse_loop (fuel - length args) (oc :: ocs) _ _ _ _ _) as [st|e| | ]; try done.
      destruct Hr as (a & T & x' & Hadd & Hok' & Hle & _). destruct (Hdone a T cur (Model.ops st) x' _ Hadd Hok') as (x3 & Hadd3 & Hok3).
      apply (help_follows _ _ _ _ x3 _ st ws' level Hok3); [lia|done|done].
    - rewrite app_length in Hf.
      destruct (use_step fuel os prev top ops x n o w args Hok Hw Ho Hb Hl ltac:(lia)) as (cur & ops1 & x1 & Hok1 & Hstep & Hdone).
      rewrite Hstep. destruct (proj2 reads_below_parse _ _ _ _ _ Hbelow (fuel - length args) cur ops1 x1 Hok1 ltac:(lia)) as (ops2 & x2 & He & Hadd & Hok2).
      rewrite He. cbn [rbind]. destruct (Hdone _ _ cur ops2 x2 _ Hadd Hok2) as (x3 & Hadd3 & Hok3). destruct (bound_meaning o w args sub) as [Hm1 Hm2].
      rewrite Hm1 in Hok3. apply below_le in Hbelow. apply (IH Hos _ prev ops2 x3 Hok3). lia.
  Qed.
End line.
