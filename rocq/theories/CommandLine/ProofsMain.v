From Coq Require Import Ascii.
From stdpp Require Import list.
From Verif.Base Require Import Outcome ListLemmas.
From Verif.Text Require Import Model.
From Verif.Graph Require Import Model ModelWeighted.
From Verif.CommandLine Require Import Model Spec ProofsTree ProofsParse ProofsHelp ProofsLine ProofsInvoke.
Local Open Scope res_scope.

Section main.
  Context {E : Type}.
  Implicit Types o : opt E.
  Implicit Types os gs : list (opt E).
  Implicit Types ws : list text.
  Implicit Types ts : list (optree E).

  Notation start := (OpData None 0).

  Lemma start_ok : ctx_ok true start ([] : list (optree E)) (CTop []) 0.
  Proof. done. Qed.

  Lemma parse_eq z ws os : os <> [] -> parse (z :: ws) os =
    (let? st := parse_loop (S (length ws)) os start true None start (PState ws [] []) in Ok (Outcome z (ops st) (help st))).
  Proof. unfold parse. by destruct os. Qed.

  Lemma holds_represents (g : optree E) u : holds g (flat None 0 u) <-> represents g u.
  Proof.
    unfold holds, represents. split; [intros (? & ? & _); done|]. intros [? ?]. split; [done|]. split; [done|]. apply flat_inside.
  Qed.

  Lemma represents_fun g1 g2 (u : otree E) : represents g1 u -> represents g2 u -> g1 = g2.
  Proof. destruct g1, g2. intros [H1 H2] [H3 H4]. cbn in *. congruence. Qed.

  Lemma represents_all ts ts' (us : list (otree E)) : Forall2 represents ts us -> Forall2 represents ts' us -> ts = ts'.
  Proof.
    intros H. revert ts'. induction H as [|g u ts us Hg _ IH]; intros ts' H'; inversion H'; subst; [done|].
    f_equal; [by eapply represents_fun|by apply IH].
  Qed.

  Lemma reads_true_end top os n ws is ws' : reads top os n ws is ws' -> top = true -> ws' = [].
  Proof.
    induction 1; intros Ht; try done; auto.
  Qed.

  Lemma ctx_add_top (x : ctx) a us : ctx_add (CTop []) a us x -> a = [] /\ exists ts, x = CTop ts /\ Forall2 represents ts us.
  Proof.
    inversion 1 as [pre ts T HT|]; subst. split; [done|]. exists ts. split; [done|]. eapply Forall2_impl; [exact HT|]. intros g u. apply holds_represents.
  Qed.

  Lemma parse_reads z ws os is : os <> [] -> reads true os 0 ws is [] ->
    exists ts, parse (z :: ws) os = Ok (Outcome z ts []) /\ Forall2 represents ts (trees_of is).
  Proof.
    intros Hos Hr. destruct (proj1 reads_below_parse _ _ _ _ _ _ Hr (S (length ws)) start [] (CTop []) start_ok ltac:(lia)) as (ts & x & Hp & Hadd & Hok).
    rewrite parse_eq, Hp by done. cbn. apply ctx_add_top in Hadd as (_ & ts' & -> & Hts). destruct Hok as (_ & _ & ->). by exists ts'.
  Qed.

  Lemma parse_total z ws os : os <> [] ->
    match parse (z :: ws) os with
    | Ok r => zeroth_arg r = z /\
        (help_text r = [] -> exists is, reads true os 0 ws is [] /\ Forall2 represents (operations r) (trees_of is))
        /\ (help_text r <> [] -> exists level ws', asks true os 0 ws level ws')
    | Throw RuntimeError => True
    | Throw LogicError => Exists (fun o => bound o = false) os
    | _ => False
    end.
  Proof.
    intros Hos. rewrite parse_eq by done. pose proof (reading (S (length ws)) os start true [] (CTop []) 0 ws [] start_ok ltac:(lia) Hos) as H.
    destruct (parse_loop _ _ _ _ _ _ _) as [st| [] | | ]; try done; cbn [rbind]; [|by destruct H].
    destruct H as (a & us & x & Hadd & Hok & _ & _ & H1 & H2). split; [done|]. cbn [help_text operations].
    split; [|by apply H2]. intros Hh. destruct (H1 eq_refl Hh) as (is & Hr & _ & ->). pose proof (reads_true_end _ _ _ _ _ _ Hr eq_refl) as Hend.
    rewrite Hend in Hr. exists is. split; [done|].
    apply ctx_add_top in Hadd as (_ & ts' & -> & Hts). destruct Hok as (_ & _ & ->). done.
  Qed.

  Lemma parse_ok_iff z ws os z' ts : os <> [] ->
    parse (z :: ws) os = Ok (Outcome z' ts []) <-> z' = z /\ exists is, reads true os 0 ws is [] /\ Forall2 represents ts (trees_of is).
  Proof.
    intros Hos. split.
    - intros H. pose proof (parse_total z ws os Hos) as Ht. rewrite H in Ht. destruct Ht as (? & Ht & _). cbn in *. split; [done|by apply Ht].
    - intros (-> & is & Hr & Hts). destruct (parse_reads z ws os is Hos Hr) as (ts' & -> & Hts'). by rewrite (represents_all _ _ _ Hts Hts').
  Qed.

  Lemma parse_bound z ws os : os <> [] -> Forall (fun o => bound o = true) os ->
    (exists r, parse (z :: ws) os = Ok r) \/ parse (z :: ws) os = Throw RuntimeError.
  Proof.
    intros Hos Hb. pose proof (parse_total z ws os Hos) as H. destruct (parse (z :: ws) os) as [r| [] | | ]; try done.
    - left. by exists r.
    - apply Exists_exists in H as (o & Ho & Hbo). rewrite Forall_forall in Hb. specialize (Hb o Ho). congruence.
    - by right.
  Qed.

  Lemma invoke_reads z ws os is : os <> [] -> reads true os 0 ws is [] ->
    parse_invoke (z :: ws) os = Ok ([], Zeroth z :: concat (map calls (trees_of is))).
  Proof.
    intros Hos Hr. destruct (parse_reads z ws os is Hos Hr) as (ts & Hp & Hts). unfold parse_invoke. rewrite Hp. cbn [rbind help_text operations zeroth_arg].
    by rewrite (calls_trees ts _ Hts).
  Qed.

  Lemma parse_asks z ws os level : os <> [] -> asks true os 0 ws level [] ->
    exists ts h, parse (z :: ws) os = Ok (Outcome z ts h) /\ h <> [] /\ generate_help level = Ok h.
  Proof.
    intros Hos Ha. pose proof (asks_parse true os 0 ws level [] Ha Hos (S (length ws)) start [] (CTop []) start_ok ltac:(lia)) as H.
    rewrite parse_eq by done. destruct (parse_loop _ _ _ _ _ _ _) as [st| e | | ]; try done. destruct H as (Hh & H). destruct (H eq_refl) as [_ Hg].
    cbn. by exists (ops st), (help st).
  Qed.

  Lemma parse_asks_any z ws os level ws' : os <> [] -> asks true os 0 ws level ws' ->
    match parse (z :: ws) os with
    | Ok r => help_text r <> []
    | Throw _ => ws' <> []
    | _ => False
    end.
  Proof.
    intros Hos Ha. pose proof (asks_parse true os 0 ws level ws' Ha Hos (S (length ws)) start [] (CTop []) start_ok ltac:(lia)) as H.
    rewrite parse_eq by done. destruct (parse_loop _ _ _ _ _ _ _) as [st| e | | ]; try done. by destruct H.
  Qed.

  Lemma invoke_asks z ws os level : os <> [] -> asks true os 0 ws level [] -> Forall tidy level ->
    parse_invoke (z :: ws) os = Ok (help_of level, []).
  Proof.
    intros Hos Ha Ht. destruct (parse_asks z ws os level Hos Ha) as (ts & h & Hp & Hh & Hg). unfold parse_invoke. rewrite Hp. cbn [rbind help_text].
    rewrite (generate_help_text level Ht) in Hg. injection Hg as ->. by destruct h.
  Qed.

  Lemma invoke_total z ws os : os <> [] ->
    match parse_invoke (z :: ws) os with
    | Ok (h, cs) =>
        (h <> [] -> cs = [] /\ exists level ws', asks true os 0 ws level ws')
        /\ (h = [] -> exists is, reads true os 0 ws is [] /\ cs = Zeroth z :: concat (map calls (trees_of is)))
    | Throw RuntimeError => True
    | Throw LogicError => Exists (fun o => bound o = false) os
    | _ => False
    end.
  Proof.
    intros Hos. pose proof (parse_total z ws os Hos) as H. unfold parse_invoke. destruct (parse (z :: ws) os) as [[z' ts h]|e| | ]; try done. cbn in *.
    destruct H as (-> & H1 & H2). destruct h as [|c h].
    - destruct (H1 eq_refl) as (is & Hr & Hts). rewrite (calls_trees ts _ Hts). cbn. split; [done|]. intros _. by exists is.
    - split; [|done]. intros _. split; [done|by apply H2].
  Qed.

  Lemma never_both (z : text) ws os is level ws' : os <> [] -> reads true os 0 ws is [] -> asks true os 0 ws level ws' -> False.
  Proof.
    intros Hos Hr Ha. destruct (parse_reads z ws os is Hos Hr) as (ts & Hp & _). pose proof (parse_asks_any z ws os level ws' Hos Ha) as H.
    by rewrite Hp in H.
  Qed.

  (** *** Exact numbers of arguments *)

  Lemma first_of_unique (P : opt E -> Prop) os o o' : first_of P os o -> first_of P os o' -> o = o'.
  Proof.
    intros (l1 & l2 & -> & Ho & Hl) (l3 & l4 & Heq & Ho' & Hl'). revert l3 Hl' Heq. induction Hl as [|y l1 Hy _ IH]; intros l3 Hl' Heq.
    - destruct l3 as [|y l3]; [by injection Heq|]. injection Heq as -> _. by inversion Hl'.
    - destruct l3 as [|y' l3]; [injection Heq as -> _; done|]. injection Heq as -> Heq. inversion Hl'; subst. by apply (IH l3).
  Qed.

  Lemma group_exact os l w gs : level_of os l -> orderly os w -> stand_for l w gs -> exact_item (Group w gs).
  Proof.
    intros Hl Ho [Hc Hs]. destruct (Ho l Hl) as [Hn|[(cs & -> & Hd & Hcs)|(c & cs & Hlt & Hno)]]; [done|..].
    - assert (Hlet : letters (dash :: cs) = cs).
      { unfold letters. cbn [tail]. clear -Hd. induction cs as [|c cs IH]; [done|]. rewrite filter_cons, decide_True.
        - f_equal. apply IH. intros H. apply Hd. by right.
        - intros ->. apply Hd. left. }
      rewrite Hlet in Hs. constructor.
      + eapply Forall2_impl; [exact Hs|]. intros c o Hco. by apply first_of_elem in Hco as [_ ?].
      + clear -Hs Hcs. induction Hs as [|c o cs gs Hco _ IH]; [constructor|]. inversion Hcs as [|? ? (o' & Ho' & Hp) Hcs']; subst.
        constructor; [|by apply IH]. by rewrite (first_of_unique _ _ _ _ Hco Ho').
    - exfalso. rewrite Hlt in Hs. inversion Hs as [|? o ? ? Hco _]; subst. apply first_of_elem in Hco as [Hin Hal]. rewrite Forall_forall in Hno. by apply (Hno o).
  Qed.

  Lemma given_up_nothing os l w gs : level_of os l -> orderly os w -> given_up l w gs -> gs = [].
  Proof.
    intros Hl Ho [[_ ->]|(Hc & cs1 & c & cs2 & Hlt & Hs & Hno)]; [done|].
    destruct (Ho l Hl) as [Hn|[(cs & -> & Hd & Hcs)|(c' & cs & Hlt' & Hno')]]; [done|..].
    - exfalso. assert (Hin : c ∈ cs).
      { assert (H : c ∈ letters (dash :: cs)) by (rewrite Hlt; apply elem_of_app; right; left). unfold letters in H. cbn [tail] in H. by apply elem_of_list_filter in H as [_ ?]. }
      rewrite Forall_forall in Hcs. destruct (Hcs c Hin) as (o & Hco & _). apply first_of_elem in Hco as [Hio Hal]. rewrite Forall_forall in Hno. by apply (Hno o).
    - rewrite Hlt in Hlt'. destruct cs1 as [|c1 cs1]; [by inversion Hs|]. exfalso. injection Hlt' as -> _. inversion Hs as [|? o ? ? Hco _]; subst.
      apply first_of_elem in Hco as [Hin Hal]. rewrite Forall_forall in Hno'. by apply (Hno' o).
  Qed.

  Lemma reads_exact os0 : bound_params os0 ->
    (forall top os n ws is ws', reads top os n ws is ws' -> level_of os0 os -> Forall (orderly os0) ws -> Forall exact_item is)
    /\ (forall o n ws is ws', below o n ws is ws' -> (exists l, level_of os0 l /\ o ∈ l) -> Forall (orderly os0) ws -> Forall exact_item is).
  Proof.
    intros Hbp. apply reads_below_ind.
    - constructor.
    - intros top os n ws is ws' _ IH Hl Hw. inversion Hw; subst. constructor; [constructor|by apply IH].
    - intros top os n o w args ws sub ws1 is ws' Hw Ho Hb Hlen Hbelow IH1 _ IH2 Hl Hws. inversion Hws as [|? ? _ Hws']; subst. apply Forall_app in Hws' as [_ Hws'].
      apply first_of_elem in Ho as [Hin Hsp]. constructor.
      + constructor; [done|done|]. apply IH1; [by exists os|done].
      + apply IH2; [done|]. apply below_show in Hbelow. rewrite <- Hbelow in Hws'. by apply Forall_app in Hws' as [_ ?].
    - intros top os n w gs ws is ws' _ Hs _ _ IH Hl Hws. inversion Hws; subst. constructor; [by eapply group_exact|by apply IH].
    - intros os n w gs ws _ _ _ Hg Hl Hws. inversion Hws; subst. rewrite (given_up_nothing os0 os w gs) by done. constructor; [constructor|constructor].
    - intros os n o w args _ Ho Hb Hlen _ Hl _. apply first_of_elem in Ho as [Hin _]. rewrite (Hbp os o Hl Hin Hb) in Hlen. cbn in Hlen. lia.
    - constructor.
    - intros o n ws is ws' _ _ IH (l & Hl & Hin) Hws. apply IH; [by eapply level_below|done].
  Qed.

  Lemma reads_all_exact os n ws is ws' : bound_params os -> Forall (orderly os) ws -> reads true os n ws is ws' -> Forall exact_item is.
  Proof. intros Hb Hw Hr. eapply (proj1 (reads_exact os Hb)); [done|constructor|done]. Qed.

  Lemma reads_unique_calls (z : text) ws os is is' : os <> [] -> reads true os 0 ws is [] -> reads true os 0 ws is' [] ->
    concat (map calls (trees_of is)) = concat (map calls (trees_of is')).
  Proof. intros Hos H1 H2. pose proof (invoke_reads z ws os is Hos H1). pose proof (invoke_reads z ws os is' Hos H2). congruence. Qed.
End main.

Section more.
  Context {E : Type}.
  Implicit Types o : opt E.

  Lemma invoke_plain z os o w args ws is : w <> [] -> first_of (fun o => spelt o w) os o -> bound o = true -> o_children o = [] ->
    length args = length (o_params o) -> reads true os 0 ws is [] ->
    parse_invoke (z :: w :: args ++ ws) os =
      Ok ([], Zeroth z :: invoke (o_early o) args ++ invoke (o_late o) args ++ concat (map calls (trees_of is))).
  Proof.
    intros Hw Ho Hb Hc Hl Hr. assert (Hos : os <> []) by (intros ->; destruct Ho as ([] & ? & ? & _); done).
    assert (Hr' : reads true os 0 (w :: args ++ ws) (Use o w args [] :: is) []).
    { eapply reads_use; try done.
      - by apply below_none.
      - cbn [meaning]. by rewrite Hb. }
    rewrite (invoke_reads z _ os _ Hos Hr'). unfold trees_of at 1. cbn [map concat meaning]. rewrite Hb. cbn. by rewrite app_nil_r, <- app_assoc.
  Qed.

  Lemma no_options z (ws : list text) : parse_invoke (z :: ws) ([] : list (opt E)) = Ok ([], [Zeroth z]).
  Proof. done. Qed.
End more.
