(** Proofs about the comparison of paths: which failures there are. *)
From Coq Require Import Ascii String.
From stdpp Require Import list sorting.
From Verif.Base Require Import Outcome Compare ListLemmas.
From Verif.Text Require Import Model.
From Verif.SoftUpdate Require Import Model Spec Proofs ProofsFormed.
From Verif.TextCheck Require Proofs.
From Verif.PathCheck Require Import Model Spec Proofs.
Local Open Scope res_scope.

Section check.
  Variable rx : text -> text -> text.
  Variable strong : bool.

  Lemma check_file_spec p n a t n' b : exists o, compare_texts (reduced rx t n n' a) (reduced rx t n n' b) = Ok o /\
    check_file rx p n a t n' b = Ok (match o with Some r => [(p, WrongContents r)] | None => [] end).
  Proof.
    destruct (TextCheck.Proofs.compare_texts_returns (reduced rx t n n' a) (reduced rx t n n' b)) as [o Ho]. exists o. split; [done|].
    unfold check_file, reduce, supplement. unfold reduced in Ho. destruct (decide (extension n = seqpat)); cbn [fold_left]; by rewrite Ho.
  Qed.

  Lemma collect_ok f l (g : text -> list failure) : (forall m, m ∈ l -> f m = Ok (g m)) -> collect f l = Ok (concat (map g l)).
  Proof.
    induction l as [|m l IH]; intros H; cbn [collect]; [done|]. rewrite (H m) by left. cbn [rbind].
    rewrite IH by (intros k Hk; apply H; by right). done.
  Qed.

  (** What is reported at a place *)
  Definition expected (p : list text) (t : list (text * node)) (n n' : text) (e e' : node) (l : list failure) : Prop :=
    forall q i, (q, i) ∈ l <-> exists r u k k' z z', q = p ++ r /\ compared strong t n n' e e' r u k k' z z' /\ differ rx strong u k k' z z' i.

  Lemma visible_entry d m : visible d m -> exists x, entry d m = Some x.
  Proof. intros [H _]. destruct (entry d m); [by eexists|done]. Qed.

  Theorem check_reports fuel : forall p n e t n' e', formed e -> formed e' -> depth e < fuel ->
    exists l, check_path rx strong fuel p (Some n) (Some e) t (Some n') (Some e') = Ok l /\ expected p t n n' e e' l.
  Proof.
    induction fuel as [|fuel IH]; intros p n e t n' e' He He' Hd; [lia|]. cbn [check_path]. cbn [fmap option_fmap option_map].
    destruct (decide (Some (kind_of e) = Some (kind_of e'))) as [Hk|Hk].
    2: { eexists. split; [reflexivity|]. intros q i. rewrite elem_of_list_singleton. split.
         - intros [= -> ->]. exists [], t, n, n', e, e'. rewrite app_nil_r. split; [done|]. split; [constructor|]. constructor. congruence.
         - intros (r&u&k&k'&z&z'&->&Hc&Hdf). destruct Hc; [|done]. rewrite app_nil_r.
           destruct Hdf; try done; congruence. }
    assert (kind_of e = kind_of e') as Hk' by congruence. clear Hk.
    destruct (strong && negb (bool_decide (n = n'))) eqn:Es.
    { apply andb_true_iff in Es as [Es Hn]. apply negb_true_iff, bool_decide_eq_false in Hn.
      eexists. split; [reflexivity|]. intros q i. rewrite elem_of_list_singleton. split.
      - intros [= -> ->]. exists [], t, n, n', e, e'. rewrite app_nil_r. split; [done|]. split; [constructor|]. by constructor.
      - intros (r&u&k&k'&z&z'&->&Hc&Hdf). destruct Hc as [|t n n' d d' m x y q u k k' z z' Hnn]; [|by specialize (Hnn Es)]. rewrite app_nil_r.
        destruct Hdf as [| |? ? ? ? ? ? ? Hnn|? ? ? ? ? ? ? ? Hnn|? ? ? ? ? ? Hnn]; [congruence|done|by specialize (Hnn Es)..]. }
    assert (strong = true -> n = n') as Hnn.
    { intros ->. cbn in Es. apply negb_false_iff, bool_decide_eq_true in Es. done. }
    destruct e as [a|d], e' as [b|d']; try discriminate Hk'.
    - destruct (check_file_spec p n a t n' b) as (o&Ho&->). eexists. split; [reflexivity|]. intros q i. split.
      + destruct o as [r|]; [|by intros ?%elem_of_nil]. rewrite elem_of_list_singleton. intros [= -> ->].
        exists [], t, n, n', (File a), (File b). rewrite app_nil_r. split; [done|]. split; [constructor|]. by constructor.
      + intros (r&u&k&k'&z&z'&->&Hc&Hdf). inversion Hc; subst. rewrite app_nil_r.
        inversion Hdf; subst; try (cbn in *; congruence).
        * exfalso. auto.
        * rewrite Ho in *. match goal with H : Ok _ = Ok _ |- _ => injection H as -> end. by left.
    - destruct He as [Hnd Hne Hsub]. destruct He' as [Hnd' Hne' Hsub'].
      assert (NoDup (names d)) as Hn1 by (apply strict_nodup, names_sorted; done).
      assert (NoDup (names d')) as Hn2 by (apply strict_nodup, names_sorted; done).
      assert (forall i, differ rx strong t n n' (Dir d) (Dir d') i <->
        (List.length (names d) <> List.length (names d') /\ i = WrongNumber (List.length (names d)) (List.length (names d'))) \/
        exists o o', first_mismatch (names d) (names d') = Some (o, o') /\ i = WrongEntry o o') as Hdiff.
      { intros i. split.
        - inversion 1; subst; try (cbn in *; congruence).
          + exfalso; auto.
          + left. assert (l ≡ₚ names d) as Hl. { apply NoDup_Permutation; [done..|]. intros m. rewrite names_elem. auto. }
            assert (l' ≡ₚ names d') as Hl'. { apply NoDup_Permutation; [done..|]. intros m. rewrite names_elem. auto. }
            by rewrite <- Hl, <- Hl'.
          + right. exists o, o'. split; [|done]. apply mismatch_names; [done..|]. by exists m.
        - intros [[Hl ->]|(o&o'&Hm&->)].
          + constructor; [done..| | |done]; intros m; apply names_elem.
          + apply mismatch_names in Hm as (m&H1&H2&H3&H4); [|done..]. by apply (differ_entry _ _ _ _ _ _ _ m). }
      set (number := if decide (List.length (names d) = List.length (names d')) then [] else [(p, WrongNumber (List.length (names d)) (List.length (names d')))]).
      assert (forall q i, (q, i) ∈ number <-> q = p /\ List.length (names d) <> List.length (names d') /\
        i = WrongNumber (List.length (names d)) (List.length (names d'))) as Hnum.
      { intros q i. unfold number. destruct (decide _) as [E|E].
        - rewrite elem_of_nil. tauto.
        - rewrite elem_of_list_singleton. split; [by intros [= -> ->]|by intros (->&_&->)]. }
      destruct (first_mismatch (names d) (names d')) as [[o o']|] eqn:Em.
      + eexists. split; [reflexivity|]. intros q i. rewrite elem_of_app, Hnum, elem_of_list_singleton. cbn [fst snd]. split.
        * intros H. exists [], t, n, n', (Dir d), (Dir d'). rewrite app_nil_r. split; [|split; [constructor|]].
          -- destruct H as [[-> _]|[= -> _]]; done.
          -- apply Hdiff. destruct H as [(_&H&->)|[= _ ->]]; [by left|]. right. by exists o, o'.
        * intros (r&u&k&k'&z&z'&->&Hc&Hdf). inversion Hc; subst.
          -- rewrite app_nil_r. apply Hdiff in Hdf as [[H1 H2]|(u0&u'&[= <- <-]&->)]; [by left|by right].
          -- exfalso. match goal with H : forall m, visible d m <-> visible d' m |- _ => apply (same_names d d' Hnd Hnd') in H; rename H into Hs end.
             apply first_mismatch_none in Hs. congruence.
      + apply first_mismatch_none in Em. assert (Hs := proj1 (same_names d d' Hnd Hnd') Em).
        assert (forall m, m ∈ names d -> exists x y, entry d m = Some x /\ entry d' m = Some y /\
          exists l, check_path rx strong fuel (p ++ [m]) (Some m) (entry d m) d' (Some m) (entry d' m) = Ok l /\ expected (p ++ [m]) d' m m x y l) as Hall.
        { intros m Hm. apply names_elem in Hm. destruct (visible_entry _ _ Hm) as [x Hx]. destruct (visible_entry _ _ (proj1 (Hs m) Hm)) as [y Hy].
          exists x, y. rewrite Hx, Hy. split; [done|]. split; [done|]. apply IH.
          - destruct x; [done|]. by eapply Hsub.
          - destruct y; [done|]. by eapply Hsub'.
          - destruct x as [c|x']; [cbn in Hd |- *; lia|]. pose proof (depth_entry d m x' Hx). lia. }
        assert (exists g, forall m, m ∈ names d -> exists x y, entry d m = Some x /\ entry d' m = Some y /\
          check_path rx strong fuel (p ++ [m]) (Some m) (entry d m) d' (Some m) (entry d' m) = Ok (g m) /\ expected (p ++ [m]) d' m m x y (g m)) as [g Hg].
        { exists (fun m => match check_path rx strong fuel (p ++ [m]) (Some m) (entry d m) d' (Some m) (entry d' m) with Ok l => l | _ => [] end).
          intros m Hm. destruct (Hall m Hm) as (x&y&Hx&Hy&l&Hl&Hl'). exists x, y. rewrite Hl. done. }
        rewrite (collect_ok _ _ g) by (intros m Hm; destruct (Hg m Hm) as (x&y&_&_&H&_); exact H). cbn [rbind].
        eexists. split; [reflexivity|]. intros q i. rewrite elem_of_app, Hnum.
        assert ((q, i) ∈ concat (map g (names d)) <-> exists m, m ∈ names d /\ (q, i) ∈ g m) as Hcat.
        { rewrite elem_of_list_In, in_concat. split.
          - intros (l&Hl&Hi). apply in_map_iff in Hl as (m&<-&Hm). exists m. by rewrite !elem_of_list_In.
          - intros (m&Hm&Hi). exists (g m). split; [|by apply elem_of_list_In].
            apply in_map_iff. exists m. split; [done|]. by apply elem_of_list_In. }
        rewrite Hcat. split.
        * intros [(_&H&_)|(m&Hm&Hi)]; [by rewrite Em in H|].
          destruct (Hg m Hm) as (x&y&Hx&Hy&_&Hexp). apply (proj1 (Hexp q i)) in Hi. destruct Hi as (r&u&k&k'&z&z'&->&Hc&Hdf).
          exists (m :: r), u, k, k', z, z'. rewrite <- app_assoc. split; [done|]. split; [|done].
          apply names_elem in Hm as [_ Hm]. by apply (compared_below strong t n n' d d' m x y).
        * intros (r&u&k&k'&z&z'&->&Hc&Hdf). right. inversion Hc; subst.
          -- exfalso. apply Hdiff in Hdf as [[H1 _]|(o&o'&H1&_)]; [by rewrite Em in H1|]. discriminate H1.
          -- exists m. assert (m ∈ names d) as Hm. { apply names_elem. split; [congruence|done]. }
             split; [done|]. destruct (Hg m Hm) as (x'&y'&Hx&Hy&_&Hexp). apply (proj2 (Hexp _ _)). eexists _, u, k, k', z, z'.
             rewrite <- app_assoc. split; [reflexivity|]. split; [|done]. congruence.
  Qed.

  Definition differences (t : list (text * node)) (n n' : text) (e e' : node) : Prop :=
    exists r u k k' z z' i, compared strong t n n' e e' r u k k' z z' /\ differ rx strong u k k' z z' i.

  Lemma alike_no_differences t n n' e e' : (strong = true -> n = n') -> alike rx t n n' (Some e) (Some e') -> ~ differences t n n' e e'.
  Proof.
    intros Hn Ha (r&u&k&k'&z&z'&i&Hc&Hd). induction Hc as [t n n' e e'|t n n' d d' m x y q u k k' z z' _ Hs Hm Hx Hy Hc IH].
    - assert (forall d d', alike rx t n n' (Some (Dir d)) (Some (Dir d')) -> forall m, visible d m <-> visible d' m) as Hvis.
      { intros d d' H m. inversion H; subst. unfold visible. split; intros [He Hx]; (split; [|exact Hx]);
          match goal with H : forall m, ~ excluded m -> _ |- _ => specialize (H m Hx); inversion H; congruence end. }
      destruct Hd as [t n n' e e' Hk|t n n' e e' Hk Hs Hnn|t n n' d d' l l' _ H1 H2 H3 H4 H5|t n n' d d' m o o' _ H1 _ _ _|t n n' a b r _ H].
      + inversion Ha; subst; done.
      + auto.
      + apply H5. apply Permutation_length, NoDup_Permutation; [done..|]. intros m. rewrite H3, H4. by apply Hvis.
      + specialize (Hvis _ _ Ha m). assert (visible d m \/ ~ visible d m) as Hdec.
        { rewrite <- names_elem. destruct (decide (m ∈ names d)); tauto. } tauto.
      + inversion Ha; subst. match goal with H : reduced _ _ _ _ _ = _ |- _ => apply TextCheck.Proofs.compare_texts_passes in H end. congruence.
    - apply IH; [done| |exact Hd]. inversion Ha; subst. rewrite <- Hx, <- Hy. auto.
  Qed.

  Lemma no_differences_alike k : forall t n n' e e', depth e < k -> formed e -> formed e' -> ~ differences t n n' e e' ->
    (strong = true -> n = n') /\ alike rx t n n' (Some e) (Some e').
  Proof.
    induction k as [|k IH]; intros t n n' e e' Hk He He' Hd; [lia|].
    assert (forall i, ~ differ rx strong t n n' e e' i) as Hno.
    { intros i Hi. apply Hd. exists [], t, n, n', e, e', i. split; [constructor|done]. }
    assert (kind_of e = kind_of e') as Hkind.
    { destruct (decide (kind_of e = kind_of e')); [done|]. exfalso. eapply Hno. by constructor. }
    assert (strong = true -> n = n') as Hn.
    { intros Hs. destruct (decide (n = n')); [done|]. exfalso. eapply Hno. by apply differ_name. }
    split; [exact Hn|]. destruct e as [a|d], e' as [b|d']; try discriminate Hkind.
    - constructor. apply TextCheck.Proofs.compare_texts_passes.
      destruct (TextCheck.Proofs.compare_texts_returns (reduced rx t n n' a) (reduced rx t n n' b)) as [[r|] Ho]; [|done].
      exfalso. eapply Hno. by apply differ_contents.
    - destruct He as [Hnd Hne Hsub]. destruct He' as [Hnd' Hne' Hsub'].
      assert (names d = names d') as Em.
      { apply first_mismatch_none. destruct (first_mismatch (names d) (names d')) as [[o o']|] eqn:E; [|done].
        apply mismatch_names in E as (m&H1&H2&H3&H4); [|done..]. exfalso. eapply Hno. by apply (differ_entry _ _ _ _ _ _ _ m). }
      assert (Hs := proj1 (same_names d d' Hnd Hnd') Em). constructor. intros m Hm.
      destruct (entry d m) as [x|] eqn:Hx, (entry d' m) as [y|] eqn:Hy.
      + apply IH.
        * destruct x as [c|x']; [cbn in Hk |- *; lia|]. pose proof (depth_entry d m x' Hx). lia.
        * destruct x; [done|]. by eapply Hsub.
        * destruct y; [done|]. by eapply Hsub'.
        * intros (r&u&j&j'&z&z'&i&Hc&Hi). apply Hd. exists (m :: r), u, j, j', z, z', i. split; [|done].
          by apply (compared_below strong t n n' d d' m x y).
      + exfalso. assert (visible d m) as [Hv _]%Hs by (split; [congruence|done]). congruence.
      + exfalso. assert (visible d' m) as [Hv _]%Hs by (split; [congruence|done]). congruence.
      + constructor.
  Qed.

  Theorem check_passes fuel p n e t n' e' : formed e -> formed e' -> depth e < fuel ->
    check_path rx strong fuel p (Some n) (Some e) t (Some n') (Some e') = Ok [] <->
    (strong = true -> n = n') /\ alike rx t n n' (Some e) (Some e').
  Proof.
    intros He He' Hd. destruct (check_reports fuel p n e t n' e' He He' Hd) as (l&->&Hl). split.
    - intros [= ->]. apply (no_differences_alike fuel); [done..|]. intros (r&u&k&k'&z&z'&i&Hc&Hi).
      assert ((p ++ r, i) ∈ ([] : list failure)) as H. { apply Hl. by exists r, u, k, k', z, z'. } by apply elem_of_nil in H.
    - intros [Hn Ha]. destruct l as [|[q i] l]; [done|]. exfalso.
      destruct (proj1 (Hl q i)) as (r&u&k&k'&z&z'&_&Hc&Hi); [by left|].
      apply (alike_no_differences t n n' e e' Hn Ha). by exists r, u, k, k', z, z', i.
  Qed.
End check.

(** ** After an update of the prediction *)

Lemma special_excluded n : special n -> excluded n.
Proof. intros [->|H]; [right; left; done|right; right; done]. Qed.


Section update.
  Variable rx : text -> text -> text.

  Lemma same_reduced t n a b : same_contents rx t n a b -> reduced rx t n n a = reduced rx t n n b.
  Proof. intros [->|[H1 H2]]; [done|]. unfold reduced. destruct (decide (extension n = seqpat)); [done|exact H2]. Qed.

  (** Folders which are alike after special files have been put into them were so before. *)
  Lemma mirrors_alike k : forall f f' t', depth (Dir f') < k -> kept f f' -> mirrors rx f' t' ->
    forall u n n', alike rx u n n' (Some (Dir f)) (Some (Dir t')).
  Proof.
    induction k as [|k IH]; intros f f' t' Hd Hk Hm u n n'; [lia|]. constructor. intros m Hx.
    destruct Hk as [f f' Hk]. destruct Hm as [f' t' Hm]. specialize (Hk m). specialize (Hm m).
    inversion Hk as [? E1 E2 E3|? ? E1 E2 E3|? ? ? Hs ? E1 E2 E3|? x y Hxy E1 E2 E3]; subst.
    - rewrite <- E3 in Hm. inversion Hm; subst. constructor.
    - rewrite <- E3 in Hm. inversion Hm; subst. constructor. by apply same_reduced.
    - by destruct Hx; apply special_excluded.
    - rewrite <- E3 in Hm. inversion Hm; subst. apply (IH x y); [|done|done]. symmetry in E3. apply depth_entry in E3. lia.
  Qed.

  Lemma kept_refl k : forall f, depth (Dir f) < k -> kept f f.
  Proof.
    induction k as [|k IH]; intros f Hd; [lia|]. constructor. intros n. destruct (entry f n) as [[a|x]|] eqn:E; constructor.
    apply IH. apply depth_entry in E. lia.
  Qed.

  Theorem update_then_check fuel f t f' t' strong k p n u : well_formed f -> well_formed t ->
    soft_update rx fuel f t = Ok (f', t') -> depth (Dir f') < k ->
    check_path rx strong k p (Some n) (Some (Dir f')) u (Some n) (Some (Dir t')) = Ok [].
  Proof.
    intros Hf Ht H Hd. destruct (soft_update_formed rx fuel f t f' t' Hf Ht H) as [Hf' Ht'].
    destruct (soft_update_correct rx fuel f t f' t' Hf Ht H) as (Hm&_&_).
    apply check_passes; [done..|]. split; [done|]. apply (mirrors_alike k f' f'); [done|by apply (kept_refl k)|done].
  Qed.

  Theorem update_then_check_original fuel f t f' t' strong k p n u : well_formed f -> well_formed t ->
    soft_update rx fuel f t = Ok (f', t') -> depth (Dir f) < k ->
    check_path rx strong k p (Some n) (Some (Dir f)) u (Some n) (Some (Dir t')) = Ok [].
  Proof.
    intros Hf Ht H Hd. destruct (soft_update_formed rx fuel f t f' t' Hf Ht H) as [Hf' Ht'].
    destruct (soft_update_correct rx fuel f t f' t' Hf Ht H) as (Hm&Hk&_).
    apply check_passes; [done..|]. split; [done|]. apply (mirrors_alike (S (depth (Dir f'))) f f'); [lia|done|done].
  Qed.
End update.
