(** Texts with unknown parts: searching and replacing in them, by computation. *)
From Coq Require Import Ascii String.
From stdpp Require Import list.
From Verif.Base Require Import Outcome ListLemmas.
From Verif.Text Require Import Model Spec Proofs ProofsIndent.
From Verif.Edit Require Model Proofs.
From Verif.Creator Require Import Model.
Local Open Scope res_scope.
Notation length := List.length.

(** A character, or an unknown. *)
Inductive piece := K (c : char) | V (v : nat).
Global Instance piece_eq_dec : EqDecision piece.
Proof. solve_decision. Defined.

Inductive answer {A} := Yes (a : A) | No | Unknown.
Arguments answer : clear implicits.

Lemma replaced_skip P T w l out : (forall i, i < length w -> ~ occurs_at P (w ++ l) i) -> replaced P T l out -> replaced P T (w ++ l) (w ++ out).
Proof.
  intros Hw Hr.
  assert (forall i, occurs_at P (w ++ l) i -> exists j, i = length w + j /\ occurs_at P l j) as Hs.
  { intros i Hi. destruct (decide (i < length w)) as [Hlt|Hge]; [by destruct (Hw i Hlt)|]. exists (i - length w).
    split; [lia|]. replace i with (length w + (i - length w)) in Hi by lia. exact (proj1 (occurs_at_app _ _ _ _) Hi). }
  destruct Hr as [l Hn|pre post out [H1 H2] Hr].
  - apply replaced_none. intros [i Hi]. destruct (Hs i Hi) as (j & _ & Hj). apply Hn. by exists j.
  - rewrite !(assoc_L (++) w). apply replaced_step; [|done]. rewrite <- (assoc_L (++)). split.
    + rewrite app_length. by apply occurs_at_app.
    + intros i Hi. destruct (Hs i Hi) as (j & -> & Hj). rewrite app_length. specialize (H2 j Hj). lia.
Qed.

Lemma dedent_app w l : nl ∉ w -> dedent (w ++ l) = w ++ dedent l.
Proof.
  induction w as [|c w IH]; [done|]. rewrite not_elem_of_cons. intros [Hc Hw]. cbn. rewrite decide_False by done. by rewrite IH.
Qed.

Section computing.
  (** [F v]: characters which do not occur in [v]; [B v]: texts which do not. *)
  Context (F : nat -> text) (B : nat -> list text).

  Fixpoint forbidden (v : nat) (P : text) : option nat :=
    match P with
    | [] => None
    | p :: P' => if decide (p ∈ F v) then Some 0 else S <$> forbidden v P'
    end.
  Definition is_no {A} (a : answer A) : bool := match a with No => true | _ => false end.

  Fixpoint smatch (P : text) (s : list piece) {struct s} : answer (list piece) :=
    match P with
    | [] => Yes s
    | p :: P' =>
        match s with
        | [] => No
        | K c :: s' => if decide (p = c) then smatch P' s' else No
        | V v :: s' =>
            match forbidden v P with
            | Some i => if forallb (fun j => is_no (smatch (drop j P) s')) (seq 0 (S i)) then No else Unknown
            | None => Unknown
            end
        end
    end.

  Definition limit (v : nat) (P : text) : option nat :=
    match forbidden v P with
    | Some i => Some i
    | None => match find (fun Q => starts_with Q P) (B v) with Some Q => Some (length Q - 1) | None => None end
    end.
  (** [P] does not begin within [v], which [s] follows. *)
  Definition outside (v : nat) (P : text) (s : list piece) : bool :=
    match limit v P with
    | Some i => forallb (fun j => is_no (smatch (drop j P) s)) (seq 1 i)
    | None => false
    end.

  Fixpoint sreplace (fuel : nat) (P : text) (T s : list piece) : option (list piece) :=
    match fuel with
    | O => None
    | S fuel' =>
        match s with
        | [] => Some []
        | K c :: s' =>
            match smatch P s with
            | Yes r => (fun o => T ++ o) <$> sreplace fuel' P T r
            | No => (fun o => K c :: o) <$> sreplace fuel' P T s'
            | Unknown => None
            end
        | V v :: s' => if outside v P s' then (fun o => V v :: o) <$> sreplace fuel' P T s' else None
        end
    end.
  Definition ssubst (s : list piece) (P : text) (T : list piece) : option (list piece) :=
    match P with [] => None | _ => sreplace (S (length s)) P T s end.
  Fixpoint ssubsts (s : list piece) (rs : list (text * list piece)) : option (list piece) :=
    match rs with
    | [] => Some s
    | (P, T) :: rs' => match ssubst s P T with Some s' => ssubsts s' rs' | None => None end
    end.

  Fixpoint suntab (s T : list piece) : option (list piece) :=
    match s with
    | [] => Some []
    | K c :: s' => (fun o => (if decide (c = tab) then T else [K c]) ++ o) <$> suntab s' T
    | V v :: s' => if decide (tab ∈ F v) then (fun o => V v :: o) <$> suntab s' T else None
    end.

  Fixpoint sfirst (P : text) (s : list piece) : answer (list piece * list piece) :=
    match s with
    | [] => match P with [] => Yes ([], []) | _ => No end
    | K c :: s' =>
        match smatch P s with
        | Yes r => Yes ([], r)
        | No => match sfirst P s' with Yes (b, a) => Yes (K c :: b, a) | No => No | Unknown => Unknown end
        | Unknown => Unknown
        end
    | V v :: s' => if outside v P s' then match sfirst P s' with Yes (b, a) => Yes (V v :: b, a) | No => No | Unknown => Unknown end else Unknown
    end.
  Fixpoint slast (P : text) (s : list piece) : answer (list piece * list piece) :=
    match s with
    | [] => match P with [] => Yes ([], []) | _ => No end
    | K c :: s' =>
        match slast P s' with
        | Yes (b, a) => Yes (K c :: b, a)
        | No => match smatch P s with Yes r => Yes ([], r) | No => No | Unknown => Unknown end
        | Unknown => Unknown
        end
    | V v :: s' =>
        match slast P s' with
        | Yes (b, a) => Yes (V v :: b, a)
        | No => if outside v P s' then No else Unknown
        | Unknown => Unknown
        end
    end.

  Fixpoint sdedent (s : list piece) : option (list piece) :=
    match s with
    | [] => Some []
    | K c :: s' =>
        if decide (c = nl) then
          match s' with
          | K t :: s'' => if decide (t = tab) then (fun o => K nl :: o) <$> sdedent s'' else (fun o => K nl :: o) <$> sdedent s'
          | V _ :: _ => None
          | [] => Some [K nl]
          end
        else (fun o => K c :: o) <$> sdedent s'
    | V v :: s' => if decide (nl ∈ F v) then (fun o => V v :: o) <$> sdedent s' else None
    end.

  (** The character does not occur. *)
  Definition slacks (c : char) (s : list piece) : bool :=
    forallb (fun p => match p with K d => negb (bool_decide (c = d)) | V v => bool_decide (c ∈ F v) end) s.

  Definition ks (l : text) : list piece := map K l.

  Section meaning.
    Context (ρ : nat -> text).
    Hypothesis HF : forall v c, c ∈ F v -> c ∉ ρ v.
    Hypothesis HB : forall v P, P ∈ B v -> ~ occurs P (ρ v).

    Definition meant (p : piece) : text := match p with K c => [c] | V v => ρ v end.
    Fixpoint denote (s : list piece) : text := match s with [] => [] | p :: s' => meant p ++ denote s' end.

    Lemma denote_app s t : denote (s ++ t) = denote s ++ denote t.
    Proof using Type. induction s as [|p s IH]; [done|]. cbn. by rewrite IH, (assoc_L (++)). Qed.
    Lemma denote_ks l : denote (ks l) = l.
    Proof using Type. induction l as [|c l IH]; [done|]. cbn. f_equal. exact IH. Qed.

    Lemma forbidden_Some v P i : forbidden v P = Some i -> exists p, P !! i = Some p /\ p ∈ F v.
    Proof using All.
      revert i. induction P as [|p P IH]; intros i; cbn; [done|].
      destruct (decide (p ∈ F v)); [intros [= <-]; by exists p|]. destruct (forbidden v P) as [j|]; [|done].
      intros [= <-]. by apply IH.
    Qed.

    Lemma smatch_ok s : forall P,
      match smatch P s with
      | Yes r => denote s = P ++ denote r
      | No => forall post, denote s <> P ++ post
      | Unknown => True
      end.
    Proof using All.
      induction s as [|p s IH]; intros [|q P]; cbn [smatch]; try done.
      destruct p as [c|v].
      - destruct (decide (q = c)) as [->|Hn].
        + specialize (IH P). destruct (smatch P s) as [r| |]; [|intros post [= Hp]; by apply (IH post)|done]. cbn [denote meant]. by rewrite IH.
        + intros post [= Hp _]. done.
      - destruct (forbidden v (q :: P)) as [i|] eqn:Ef; [|done]. destruct (forallb _ _) eqn:Ea; [|done].
        intros post Hp. cbn [denote meant] in Hp. destruct (forbidden_Some v (q :: P) i Ef) as (p & Hpi & HpF).
        destruct (decide (length (ρ v) <= i)) as [Hle|Hgt].
        + rewrite forallb_forall in Ea. specialize (Ea (length (ρ v)) ltac:(apply in_seq; lia)).
          specialize (IH (drop (length (ρ v)) (q :: P))). destruct (smatch (drop (length (ρ v)) (q :: P)) s); [done| |done].
          apply (IH post). apply (f_equal (drop (length (ρ v)))) in Hp. rewrite drop_app in Hp.
          apply lookup_lt_Some in Hpi. rewrite drop_app_le in Hp by lia. done.
        + apply (HF v p HpF). apply elem_of_list_lookup. exists i. apply (f_equal (fun l => l !! i)) in Hp.
          rewrite lookup_app_l in Hp by lia. rewrite Hp. apply lookup_app_l_Some. done.
    Qed.

    Lemma outside_ok v P s : outside v P s = true -> P <> [] -> forall i, i < length (ρ v) -> ~ occurs_at P (ρ v ++ denote s) i.
    Proof using All.
      unfold outside. intros H Hne i Hi (pre & post & E & <-).
      destruct (limit v P) as [k|] eqn:El; [|done]. rewrite forallb_forall in H.
      assert (exists w2, ρ v = pre ++ w2) as [w2 Ew].
      { exists (drop (length pre) (ρ v)). rewrite <- (take_drop (length pre) (ρ v)) at 1. f_equal.
        apply (f_equal (take (length pre))) in E. rewrite take_app_le in E by lia. rewrite E, take_app. done. }
      rewrite Ew, app_length in Hi. rewrite Ew, <- (assoc_L (++)) in E. apply app_inv_head in E.
      destruct (decide (length P <= length w2)) as [Hle|Hgt].
      - assert (w2 = P ++ drop (length P) w2) as E2.
        { rewrite <- (take_drop (length P) w2) at 1. f_equal. apply (f_equal (take (length P))) in E.
          rewrite take_app_le in E by lia. by rewrite E, take_app. }
        unfold limit in El. destruct (forbidden v P) as [j|] eqn:Ef.
        + destruct (forbidden_Some v P j Ef) as (p & Hp & HpF). apply (HF v p HpF). rewrite Ew, E2.
          apply elem_of_app. right. apply elem_of_app. left. by eapply elem_of_list_lookup_2.
        + destruct (find _ (B v)) as [Q|] eqn:EQ; [|done]. apply find_some in EQ as [HQ [P' ->]%starts_with_spec].
          apply (HB v Q (proj2 (elem_of_list_In _ _) HQ)). exists (length pre), pre, (P' ++ drop (length (Q ++ P')) w2).
          split; [|done]. rewrite Ew. f_equal. rewrite E2 at 1. by rewrite <- (assoc_L (++)).
      - assert (exists j, j = length w2) as [j Hj] by by eexists.
        assert (w2 = take j P) as E1.
        { apply (f_equal (take j)) in E. rewrite (take_app_alt w2), take_app_le in E by lia. done. }
        assert (denote s = drop j P ++ post) as E3.
        { apply (f_equal (drop j)) in E. rewrite (drop_app_alt w2), drop_app_le in E by lia. done. }
        clear E.
        destruct (decide (j <= k)) as [Hjk|Hjk].
        + assert (In j (seq 1 k)) as Hin by (apply in_seq; lia). specialize (H j Hin).
          pose proof (smatch_ok s (drop j P)) as Hs. destruct (smatch (drop j P) s); [done| |done]. by apply (Hs post).
        + unfold limit in El. destruct (forbidden v P) as [f|] eqn:Ef.
          * injection El as ->. destruct (forbidden_Some v P k Ef) as (p & Hp & HpF). apply (HF v p HpF). rewrite Ew, E1.
            apply elem_of_app. right. apply elem_of_list_lookup. exists k. rewrite lookup_take by lia. done.
          * destruct (find _ (B v)) as [Q|] eqn:EQ; [|done]. apply find_some in EQ as [HQ [P' ->]%starts_with_spec]. injection El as <-.
            apply (HB v Q (proj2 (elem_of_list_In _ _) HQ)). exists (length pre), pre, (take (j - length Q) P').
            split; [|done]. rewrite Ew, E1. f_equal. rewrite take_app_ge by lia. done.
    Qed.

    Lemma not_here P c s : (forall post, denote (K c :: s) <> P ++ post) -> forall i, i < length [c] -> ~ occurs_at P ([c] ++ denote s) i.
    Proof using All. intros H i Hi Ho. cbn in Hi. assert (i = 0) as -> by lia. apply occurs_at_0 in Ho as [post Ho]. by apply (H post). Qed.

    Lemma sreplace_ok fuel P T : P <> [] -> forall s o, sreplace fuel P T s = Some o -> replaced P (denote T) (denote s) (denote o).
    Proof using All.
      intros Hne. induction fuel as [|fuel IH]; intros s o; [done|]. cbn [sreplace].
      destruct s as [|[c|v] s].
      - intros [= <-]. apply replaced_none. intros [i Hi]. apply occurs_at_nil_r in Hi as [_ ->]. done.
      - pose proof (smatch_ok (K c :: s) P) as Hm. destruct (smatch P (K c :: s)) as [r| |]; [| |done].
        + destruct (sreplace fuel P T r) as [o'|] eqn:E; [|done]. intros [= <-]. apply IH in E.
          rewrite Hm, denote_app. apply (replaced_step P (denote T) [] (denote r)); [|done].
          split; [by apply occurs_at_0; exists (denote r)|]. cbn. lia.
        + destruct (sreplace fuel P T s) as [o'|] eqn:E; [|done]. intros [= <-]. apply IH in E.
          change (denote (K c :: s)) with ([c] ++ denote s). change (denote (K c :: o')) with ([c] ++ denote o').
          apply replaced_skip; [|done]. by apply not_here.
      - destruct (outside v P s) eqn:Ho; [|done]. destruct (sreplace fuel P T s) as [o'|] eqn:E; [|done]. intros [= <-]. apply IH in E.
        cbn [denote meant]. apply replaced_skip; [|done]. by apply outside_ok.
    Qed.

    Lemma ssubst_ok s P T o : ssubst s P T = Some o -> subst (denote s) P (denote T) = Ok (denote o).
    Proof using All.
      unfold ssubst, subst. intros H. destruct P as [|p P]; [done|]. apply sreplace_ok in H; [|done].
      apply (replace_all_unique _ _ (p :: P)); [done|lia|done].
    Qed.

    Lemma ssubsts_ok rs : forall s o, ssubsts s rs = Some o ->
      substs (denote s) (map (fun r => (fst r, denote (snd r))) rs) = Ok (denote o).
    Proof using All.
      induction rs as [|[P T] rs IH]; intros s o; cbn [ssubsts substs map fst snd]; [by intros [= ->]|].
      destruct (ssubst s P T) as [s'|] eqn:E; [|done]. intros H. rewrite (ssubst_ok _ _ _ _ E). cbn [rbind]. by apply IH.
    Qed.

    Lemma suntab_subst s : forall T o, suntab s T = Some o -> subst_char tab (denote T) (denote s) = denote o.
    Proof using All.
      induction s as [|[c|v] s IH]; intros T o; cbn [suntab]; [by intros [= <-]| |].
      - destruct (suntab s T) as [o'|] eqn:E; [|done]. intros [= <-]. cbn [denote meant]. rewrite subst_char_app, denote_app.
        f_equal; [|by apply IH]. unfold subst_char. cbn. rewrite app_nil_r. by destruct (decide (c = tab)).
      - destruct (decide (tab ∈ F v)) as [Ht|]; [|done]. destruct (suntab s T) as [o'|] eqn:E; [|done]. intros [= <-].
        cbn [denote meant]. rewrite subst_char_app. f_equal; [apply subst_char_none; by apply HF|by apply IH].
    Qed.
    Lemma suntab_ok s T o : suntab s T = Some o -> untab (denote s) (denote T) = Ok (denote o).
    Proof using All. intros H. apply suntab_subst in H. unfold untab. rewrite tabs_to_spacing_spec by lia. by rewrite H. Qed.

    (** The first and the last occurrence. *)
    Lemma sfirst_ok P : P <> [] -> forall s,
      match sfirst P s with
      | Yes (b, a) => denote s = denote b ++ P ++ denote a /\ first_at P (denote s) (length (denote b))
      | No => ~ occurs P (denote s)
      | Unknown => True
      end.
    Proof using All.
      intros Hne. induction s as [|[c|v] s IH].
      - cbn. destruct P; [done|]. intros [i Hi]. apply occurs_at_nil_r in Hi as [_ ?]. done.
      - cbn [sfirst]. pose proof (smatch_ok (K c :: s) P) as Hm. destruct (smatch P (K c :: s)) as [r| |]; [| |done].
        + split; [done|]. split; [by apply occurs_at_0; exists (denote r)|]. cbn. lia.
        + pose proof (not_here P c s Hm) as Hn. destruct (sfirst P s) as [[b a]| |]; [| |done].
          * destruct IH as [E [H1 H2]]. split; [cbn [denote meant]; by rewrite E|]. cbn [denote meant app]. split; [by apply occurs_at_S|].
            intros [|j] Hj; [by destruct (Hn 0 ltac:(cbn; lia))|]. apply (proj1 (occurs_at_S _ _ _ _)) in Hj. specialize (H2 j Hj). cbn. lia.
          * intros [[|j] Hj]; [by destruct (Hn 0 ltac:(cbn; lia))|]. apply (proj1 (occurs_at_S _ _ _ _)) in Hj. apply IH. by exists j.
      - cbn [sfirst]. destruct (outside v P s) eqn:Ho; [|done]. pose proof (outside_ok v P s Ho Hne) as Hn.
        destruct (sfirst P s) as [[b a]| |]; [| |done].
        + destruct IH as [E [H1 H2]]. split; [cbn [denote meant]; by rewrite E, <- (assoc_L (++))|]. cbn [denote meant]. rewrite app_length. split; [by apply occurs_at_app|].
          intros j Hj. destruct (decide (j < length (ρ v))) as [Hlt|Hge]; [by destruct (Hn j Hlt)|].
          replace j with (length (ρ v) + (j - length (ρ v))) in Hj by lia. apply (proj1 (occurs_at_app _ _ _ _)) in Hj. specialize (H2 _ Hj). lia.
        + intros [j Hj]. destruct (decide (j < length (ρ v))) as [Hlt|Hge]; [by destruct (Hn j Hlt)|].
          cbn [denote meant] in Hj. replace j with (length (ρ v) + (j - length (ρ v))) in Hj by lia. apply (proj1 (occurs_at_app _ _ _ _)) in Hj.
          apply IH. by eexists.
    Qed.

    Lemma slast_ok P : P <> [] -> forall s,
      match slast P s with
      | Yes (b, a) => denote s = denote b ++ P ++ denote a /\ (forall j, occurs_at P (denote s) j -> j <= length (denote b))
      | No => ~ occurs P (denote s)
      | Unknown => True
      end.
    Proof using All.
      intros Hne. induction s as [|[c|v] s IH].
      - cbn. destruct P; [done|]. intros [i Hi]. apply occurs_at_nil_r in Hi as [_ ?]. done.
      - cbn [slast]. destruct (slast P s) as [[b a]| |]; [| |done].
        + destruct IH as [E H2]. split; [cbn [denote meant]; by rewrite E|]. cbn [denote meant app]. intros [|j] Hj; [lia|].
          apply (proj1 (occurs_at_S _ _ _ _)) in Hj. specialize (H2 j Hj). cbn. lia.
        + pose proof (smatch_ok (K c :: s) P) as Hm. destruct (smatch P (K c :: s)) as [r| |]; [| |done].
          * split; [done|]. intros [|j] Hj; [lia|]. cbn [denote meant app] in Hj. apply (proj1 (occurs_at_S _ _ _ _)) in Hj. destruct IH. by exists j.
          * pose proof (not_here P c s Hm) as Hn. intros [[|j] Hj]; [by destruct (Hn 0 ltac:(cbn; lia))|].
            cbn [denote meant app] in Hj. apply (proj1 (occurs_at_S _ _ _ _)) in Hj. apply IH. by exists j.
      - cbn [slast]. destruct (slast P s) as [[b a]| |]; [| |done].
        + destruct IH as [E H2]. split; [cbn [denote meant]; by rewrite E, <- (assoc_L (++))|]. cbn [denote meant]. rewrite app_length.
          intros j Hj. destruct (decide (j < length (ρ v))) as [Hlt|Hge]; [lia|].
          replace j with (length (ρ v) + (j - length (ρ v))) in Hj by lia. apply (proj1 (occurs_at_app _ _ _ _)) in Hj. specialize (H2 _ Hj). lia.
        + destruct (outside v P s) eqn:Ho; [|done]. pose proof (outside_ok v P s Ho Hne) as Hn.
          intros [j Hj]. destruct (decide (j < length (ρ v))) as [Hlt|Hge]; [by destruct (Hn j Hlt)|].
          cbn [denote meant] in Hj. replace j with (length (ρ v) + (j - length (ρ v))) in Hj by lia. apply (proj1 (occurs_at_app _ _ _ _)) in Hj.
          apply IH. by eexists.
    Qed.

    Lemma sdedent_ok n : forall s o, length s <= n -> sdedent s = Some o -> dedent (denote s) = denote o.
    Proof using All.
      induction n as [|n IH]; intros s o Hl; destruct s as [|[c|v] s]; cbn in Hl; try lia; [by intros [= <-]|by intros [= <-]| |].
      - cbn [sdedent denote meant app dedent]. destruct (decide (c = nl)) as [->|Hc].
        + destruct s as [|[t|v] s]; [by intros [= <-]| |done]. cbn [denote meant app]. destruct (decide (t = tab)).
          * destruct (sdedent s) as [o'|] eqn:E; [|done]. intros [= <-]. cbn. f_equal. apply IH; [cbn in Hl; lia|done].
          * destruct (sdedent (K t :: s)) as [o'|] eqn:E; [|done]. intros [= <-]. cbn [denote meant app]. f_equal. apply (IH (K t :: s)); [lia|done].
        + destruct (sdedent s) as [o'|] eqn:E; [|done]. intros [= <-]. cbn. f_equal. apply IH; [lia|done].
      - cbn [sdedent denote meant]. destruct (decide (nl ∈ F v)) as [Hv|]; [|done]. destruct (sdedent s) as [o'|] eqn:E; [|done]. intros [= <-].
        rewrite dedent_app by by apply HF. cbn. f_equal. apply IH; [lia|done].
    Qed.

    Lemma slacks_ok c s : slacks c s = true -> c ∉ denote s.
    Proof using All.
      induction s as [|p s IH]; [intros _; by apply not_elem_of_nil|]. cbn. intros [H1 H2]%andb_prop. rewrite elem_of_app. intros [H|H]; [|by apply IH].
      destruct p as [d|v]; cbn in H.
      - apply negb_true_iff, bool_decide_eq_false in H1. by apply elem_of_list_singleton in H.
      - apply bool_decide_eq_true in H1. by apply (HF v c).
    Qed.
  End meaning.
End computing.
