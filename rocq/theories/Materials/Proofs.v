(** Proofs about the materials of tests. *)
From Coq Require Import Ascii String.
From stdpp Require Import list gmap strings.
From Verif.Base Require Import Outcome Order ListLemmas.
From Verif.Text Require Import Model.
From Verif.Materials Require Import Model Spec.
Local Open Scope res_scope.
Local Notation "⌜ s ⌝" := (list_ascii_of_string s%string).
Local Notation length := List.length.

(** ** Operations on files *)
Lemma below_Some dir p r : below dir p = Some r <-> p = dir ++ r.
Proof.
  revert p. induction dir as [|x dir IH]; intros p; cbn; [split; [by intros [= ->]|by intros ->]|].
  destruct p as [|y p]; [by split|]. destruct (decide (x = y)) as [->|Hne].
  - rewrite IH. split; [by intros ->|by intros [= ->]].
  - split; [done|]. by intros [= -> _].
Qed.
Lemma below_None dir p : below dir p = None <-> ~ dir `prefix_of` p.
Proof.
  split.
  - intros H [r E]. apply below_Some in E. congruence.
  - intros H. destruct (below dir p) as [r|] eqn:E; [|done]. apply below_Some in E. destruct H. by exists r.
Qed.

Lemma lookup_remove d p q : ~ p `prefix_of` q -> remove_all d p !! q = d !! q.
Proof.
  intros H. unfold remove_all. destruct (d !! q) as [e|] eqn:E.
  - apply map_filter_lookup_Some. split; [done|]. by apply below_None.
  - apply map_filter_lookup_None. by left.
Qed.
Lemma lookup_removed d p r : remove_all d p !! (p ++ r) = None.
Proof.
  unfold remove_all. apply map_filter_lookup_None. right. intros e _. cbn [fst]. rewrite (proj2 (below_Some p (p ++ r) r) eq_refl). done.
Qed.

Lemma create_from_spec todo : forall d done,
  (forall r c, r `prefix_of` todo -> r <> [] -> d !! (done ++ r) <> Some (File c)) ->
  exists d', create_from d done todo = Ok d' /\
    (forall r, r `prefix_of` todo -> r <> [] -> d' !! (done ++ r) = Some Folder) /\
    (forall q, (forall r, r `prefix_of` todo -> r <> [] -> q <> done ++ r) -> d' !! q = d !! q) /\
    (forall q, is_Some (d !! q) -> d' !! q = d !! q).
Proof.
  induction todo as [|x todo IH]; intros d done Hf.
  - exists d. cbn. split; [reflexivity|]. split; [|split; [reflexivity|reflexivity]]. intros r Hr Hne. apply prefix_nil_inv in Hr. congruence.
  - cbn [create_from]. cbv zeta.
    assert (forall d1, d1 !! (done ++ [x]) = Some Folder -> (forall q, q <> done ++ [x] -> d1 !! q = d !! q) -> (forall q, is_Some (d !! q) -> d1 !! q = d !! q) ->
      exists d', create_from d1 (done ++ [x]) todo = Ok d' /\
      (forall r, r `prefix_of` x :: todo -> r <> [] -> d' !! (done ++ r) = Some Folder) /\
      (forall q, (forall r, r `prefix_of` x :: todo -> r <> [] -> q <> done ++ r) -> d' !! q = d !! q) /\
      (forall q, is_Some (d !! q) -> d' !! q = d !! q)) as HK.
    { intros d1 H1 H2 H3. destruct (IH d1 (done ++ [x])) as (d'&E&A&B&C).
      - intros r c Hr Hne. rewrite <-app_assoc. cbn [app]. rewrite H2; [apply Hf; [by apply prefix_cons|done]|].
        intros Ee. apply app_inv_head in Ee. injection Ee as ->. done.
      - exists d'. split; [exact E|]. split; [|split].
        + intros r Hr Hne. destruct r as [|y r]; [done|]. pose proof (prefix_cons_inv_1 _ _ _ _ Hr) as ->. apply prefix_cons_inv_2 in Hr.
          destruct r as [|z r].
          * rewrite C; exact H1 || (eexists; exact H1).
          * specialize (A (z :: r) Hr). rewrite <-app_assoc in A. by apply A.
        + intros q Hq. rewrite B; [apply H2; apply Hq; [|done]|].
          * apply prefix_cons. apply prefix_nil.
          * intros r Hr Hne. rewrite <-app_assoc. cbn [app]. apply Hq; [by apply prefix_cons|done].
        + intros q Hq. rewrite C; [by apply H3|]. by rewrite H3. }
    destruct (d !! (done ++ [x])) as [[c|]|] eqn:Ex.
    + exfalso. apply (Hf [x] c); [apply prefix_cons; apply prefix_nil|done|done].
    + by apply HK.
    + apply HK; [apply lookup_insert| |].
      * intros q Hq. by apply lookup_insert_ne.
      * intros q [e He]. apply lookup_insert_ne. intros <-. congruence.
Qed.

Lemma create_directories_spec d p : d !! p = None \/ d !! p = Some Folder -> way_free d p ->
  exists d', create_directories d p = Ok d' /\ (p <> [] -> d' !! p = Some Folder) /\
    (forall q, ~ q `prefix_of` p -> d' !! q = d !! q) /\ (forall q, is_Some (d !! q) -> d' !! q = d !! q) /\
    (forall q, d' !! q = d !! q \/ (d !! q = None /\ d' !! q = Some Folder /\ q `prefix_of` p)).
Proof.
  intros Hp Hw. destruct (create_from_spec p d []) as (d'&E&A&B&C).
  - intros r c Hr _. cbn [app]. destruct (decide (r = p)) as [->|Hne]; [destruct Hp as [-> | ->]; done|]. by apply Hw.
  - cbn [app] in *. exists d'. split; [exact E|]. split; [by intros; apply A|]. split; [|split; [exact C|]].
    + intros q Hq. apply B. intros r Hr _ ->. done.
    + intros q. destruct (d !! q) as [e|] eqn:Eq; [left; rewrite C; [done|by eexists]|].
      destruct (decide (q `prefix_of` p)) as [Hq|Hq]; [|left; rewrite B; [done|by intros r Hr _ ->]].
      destruct (decide (q = [])) as [->|Hne]; [left; rewrite B; [done|]|right; split; [done|split; [by apply A|done]]].
      intros r Hr Hne <-. done.
Qed.

Lemma copies_lookup d from to q : (list_to_map (copies d from to) : disk) !! q = match below to q with Some r => d !! (from ++ r) | None => None end.
Proof.
  assert (forall e, (q, e) ∈ copies d from to <-> exists r, q = to ++ r /\ d !! (from ++ r) = Some e) as HE.
  { intros e. unfold copies. rewrite elem_of_list_omap. split.
    - intros ([p e']&Hin&H). cbn [fst snd] in H. apply elem_of_map_to_list in Hin. destruct (below from p) as [r|] eqn:E; [|done].
      apply below_Some in E. subst p. injection H as <- <-. by exists r.
    - intros (r&->&H). exists (from ++ r, e). split; [by apply elem_of_map_to_list|]. cbn [fst snd].
      by rewrite (proj2 (below_Some from (from ++ r) r) eq_refl). }
  destruct (below to q) as [r|] eqn:E.
  - apply below_Some in E. destruct (d !! (from ++ r)) as [e|] eqn:Ee.
    + apply elem_of_list_to_map_1'; [|apply HE; by exists r]. intros e' H. apply HE in H as (r'&E'&H). subst q. apply app_inv_head in E'. congruence.
    + apply not_elem_of_list_to_map_1. intros Hin. apply elem_of_list_fmap in Hin as ([q' e]&Eq&Hin). cbn in Eq. subst q'.
      apply HE in Hin as (r'&E'&H). subst q. apply app_inv_head in E'. congruence.
  - apply not_elem_of_list_to_map_1. intros Hin. apply elem_of_list_fmap in Hin as ([q' e]&Eq&Hin). cbn in Eq. subst q'.
    apply HE in Hin as (r'&E'&_). apply below_None in E. destruct E. by exists r'.
Qed.

(** Copying to where there is nothing, or nothing but a folder *)
Lemma copy_spec d from to e : d !! from = Some e -> (d !! to = None /\ d !! removelast to = Some Folder) \/ (d !! to = Some Folder /\ e = Folder) ->
  (forall r, r <> [] -> d !! (to ++ r) = None) ->
  exists d', copy d from to = Ok d' /\ (forall r, d' !! (to ++ r) = d !! (from ++ r)) /\ (forall q, ~ to `prefix_of` q -> d' !! q = d !! q).
Proof.
  intros Ef Ht Hn. exists (list_to_map (copies d from to) ∪ d). split; [|split].
  - unfold copy. rewrite Ef. destruct Ht as [[-> ->]|[-> ->]]; [by destruct e|done].
  - intros r. rewrite lookup_union, copies_lookup, (proj2 (below_Some to (to ++ r) r) eq_refl).
    destruct (d !! (from ++ r)) as [e'|] eqn:E; [by destruct (d !! (to ++ r))|].
    destruct r as [|x r]; [rewrite app_nil_r in E; congruence|]. by rewrite Hn.
  - intros q Hq. rewrite lookup_union, copies_lookup, (proj2 (below_None to q) Hq). by destruct (d !! q).
Qed.

(** ** One test *)
Section locations.
  Context (M T : path) (HMT : disjoint_paths M T) (HT : T <> []).

  Lemma comparable {A} (p q r : list A) : p `prefix_of` r -> q `prefix_of` r -> p `prefix_of` q \/ q `prefix_of` p.
  Proof using. apply prefix_weak_total. Qed.
  Lemma prefix_of_app {A} (p q : list A) : p `prefix_of` p ++ q.
  Proof using. by exists q. Qed.

  Lemma not_below_M rel r : ~ (T ++ rel) `prefix_of` (M ++ r) /\ ~ (M ++ r) `prefix_of` (T ++ rel).
  Proof using HMT.
    destruct HMT as [H1 H2]. split; intros H.
    - destruct (comparable M T (M ++ r)) as [H3|H3]; [apply prefix_of_app| |done|done]. etrans; [apply prefix_of_app|exact H].
    - destruct (comparable M T (T ++ rel)) as [H3|H3]; [|apply prefix_of_app|done|done]. etrans; [apply prefix_of_app|exact H].
  Qed.

  Lemma predicts_iff d rel : predicts M d rel = present d ((M ++ rel) ++ [⌜"Prediction"⌝]).
  Proof using.
    unfold predicts, prediction, original_materials. cbv zeta. destruct (present d ((M ++ rel) ++ _)) eqn:E; [|done].
    destruct ((M ++ rel) ++ [⌜"Prediction"⌝]) eqn:En; [by destruct (M ++ rel)|]. exact E.
  Qed.

  Definition same_materials (d d' : disk) : Prop := forall r, d' !! (M ++ r) = d !! (M ++ r).

  Lemma same_predicts d d' rel : same_materials d d' -> predicts M d' rel = predicts M d rel.
  Proof using. intros H. rewrite !predicts_iff. unfold present. rewrite <-app_assoc. by rewrite H. Qed.
  Lemma same_provided d0 d1 d rel t : same_materials d0 d1 -> provided d0 (M ++ rel) d t <-> provided d1 (M ++ rel) d t.
  Proof using.
    intros H. assert (forall r, d1 !! ((M ++ rel) ++ r) = d0 !! ((M ++ rel) ++ r)) as H' by (intros r; by rewrite <-app_assoc, H).
    unfold provided, mirrored, nothing. rewrite (H rel), !H'.
    assert (forall p q, (forall r, d !! (q ++ r) = d0 !! (((M ++ rel) ++ p) ++ r)) <-> (forall r, d !! (q ++ r) = d1 !! (((M ++ rel) ++ p) ++ r))) as HM.
    { intros p q. split; intros Hx r; rewrite Hx, <-!app_assoc, !app_assoc; [symmetry|]; rewrite <-!app_assoc, H; reflexivity. }
    destruct (d0 !! (M ++ rel)); [|done]. destruct (d0 !! ((M ++ rel) ++ [⌜"Prediction"⌝])).
    - destruct (d0 !! ((M ++ rel) ++ [⌜"WorkingCopy"⌝])), (d0 !! ((M ++ rel) ++ [⌜"Auxiliary"⌝])); rewrite ?HM; done.
    - specialize (HM [] t). rewrite app_nil_r in HM. exact HM.
  Qed.

  Lemma working_rel d rel : exists r, working M T d rel = (T ++ rel) ++ r.
  Proof using. unfold working, temporary_materials. destruct (predicts M d rel); eexists; [done|by rewrite app_nil_r]. Qed.

  Lemma app_snoc_prefix (p r : path) x y : (p ++ [x]) `prefix_of` (p ++ y :: r) -> x = y.
  Proof using. intros [k H]. rewrite <-app_assoc in H. apply app_inv_head in H. by injection H. Qed.

  Lemma set_materials_spec d paths rel : d !! (M ++ rel) = None \/ d !! (M ++ rel) = Some Folder -> way_free d (T ++ rel) ->
    exists d' paths', set_materials M T d paths rel = Ok (d', paths') /\
      only_below (T ++ rel) d d' /\ same_materials d d' /\
      (d !! (M ++ rel) <> None -> working M T d rel ∉ paths -> provided d (M ++ rel) d' (T ++ rel) /\ paths' = paths ++ [working M T d rel]) /\
      (d !! (M ++ rel) = None \/ working M T d rel ∈ paths -> d' = d /\ paths' = paths).
  Proof using HMT HT.
    intros Hm Hw. unfold set_materials. unfold original_materials at 1, present at 1.
    destruct (d !! (M ++ rel)) as [em|] eqn:Em; cbn [negb].
    2: { exists d, paths. split; [done|]. split; [by left|]. split; [done|]. split; [done|done]. }
    destruct Hm as [?|[= ->]]; [done|]. cbv zeta.
    destruct (bool_decide_reflect (working M T d rel ∈ paths)) as [Hin|Hnin].
    { exists d, paths. split; [done|]. split; [by left|]. split; [done|]. split; [done|done]. }
    unfold temporary_materials at 1 2. set (t := T ++ rel) in *. set (m := M ++ rel) in *.
    assert (t <> []) as Htne by (unfold t; by destruct T).
    destruct (create_directories_spec (remove_all d t) t) as (d1&E1&A1&B1&C1&D1).
    { left. pose proof (lookup_removed d t []) as H. by rewrite app_nil_r in H. }
    { intros q c Hq Hne. rewrite lookup_remove; [by apply Hw|]. intros H. apply Hne. by apply (anti_symm prefix). }
    rewrite E1. cbn [rbind].
    assert (same_materials d d1) as Hs1.
    { intros r. rewrite B1, lookup_remove; [done|apply (not_below_M rel r)|apply (not_below_M rel r)]. }
    assert (forall r, r <> [] -> d1 !! (t ++ r) = None) as Hfresh.
    { intros r Hr. rewrite B1; [apply lookup_removed|]. intros [k H]. rewrite <-app_assoc in H.
      rewrite <-(app_nil_r t) in H at 1. apply app_inv_head in H. destruct r; [done|discriminate]. }
    assert (forall q, ~ t `prefix_of` q -> d1 !! q = d !! q \/ (d !! q = None /\ d1 !! q = Some Folder /\ q `prefix_of` t)) as Ho1.
    { intros q Hq. specialize (D1 q). rewrite lookup_remove in D1 by done. done. }
    specialize (A1 Htne).
    assert (predicts M d1 rel = predicts M d rel) as Hp1 by (by apply same_predicts).
    assert (forall d2, same_materials d d2 -> predicts M d2 rel = predicts M d rel) as Hp by (intros; by apply same_predicts).
    unfold working, original_working, original_auxiliary, auxiliary, original_materials, temporary_materials. fold t m.
    rewrite Hp1. pose proof (predicts_iff d rel) as HP. fold m in HP. unfold present in HP. unfold provided. fold m. rewrite Em.
    destruct (d !! (m ++ [⌜"Prediction"⌝])) as [ep|] eqn:Ep.
    - (* with a prediction *)
      rewrite HP.
      assert (forall x, d1 !! (m ++ [x]) = d !! (m ++ [x])) as Hs1' by (intros x; unfold m; rewrite <-app_assoc; apply Hs1).
      assert (exists d2, (if present d1 (m ++ [⌜"WorkingCopy"⌝]) then copy d1 (m ++ [⌜"WorkingCopy"⌝]) (t ++ [⌜"WorkingCopy"⌝])
          else create_directory d1 (t ++ [⌜"WorkingCopy"⌝])) = Ok d2 /\
        (match d !! (m ++ [⌜"WorkingCopy"⌝]) with
         | Some _ => mirrored d (m ++ [⌜"WorkingCopy"⌝]) d2 (t ++ [⌜"WorkingCopy"⌝])
         | None => forall r, d2 !! (t ++ [⌜"WorkingCopy"⌝] ++ r) = if decide (r = []) then Some Folder else None
         end) /\ (forall q, ~ (t ++ [⌜"WorkingCopy"⌝]) `prefix_of` q -> d2 !! q = d1 !! q)) as (d2&E2&A2&B2).
      { unfold present. rewrite Hs1'. destruct (d !! (m ++ [⌜"WorkingCopy"⌝])) as [ew|] eqn:Ew.
        - destruct (copy_spec d1 (m ++ [⌜"WorkingCopy"⌝]) (t ++ [⌜"WorkingCopy"⌝]) ew) as (d2&E2&A2&B2).
          + by rewrite Hs1'.
          + left. split; [by apply Hfresh|]. by rewrite removelast_last.
          + intros r Hr. rewrite <-app_assoc. by apply Hfresh.
          + exists d2. split; [done|]. split; [|done]. intros r. rewrite A2. unfold m. rewrite <-!app_assoc. apply Hs1.
        - exists (<[t ++ [⌜"WorkingCopy"⌝] := Folder]> d1). unfold create_directory. rewrite Hfresh, removelast_last, A1 by done.
          split; [done|]. split.
          + intros r. destruct (decide (r = [])) as [->|Hr]; [rewrite app_nil_r; apply lookup_insert|].
            rewrite lookup_insert_ne; [by apply Hfresh|]. intros H. apply app_inv_head in H. injection H as H. congruence.
          + intros q Hq. apply lookup_insert_ne. intros <-. done. }
      rewrite E2. cbn [rbind].
      assert (same_materials d d2) as Hs2.
      { intros r. rewrite B2; [apply Hs1|]. intros H. apply (proj1 (not_below_M rel r)). fold t. etrans; [apply prefix_of_app|exact H]. }
      rewrite (Hp d2 Hs2), HP.
      assert (d2 !! (m ++ [⌜"Auxiliary"⌝]) = d !! (m ++ [⌜"Auxiliary"⌝])) as Ea by (unfold m; rewrite <-app_assoc; apply Hs2).
      destruct (m ++ [⌜"Auxiliary"⌝]) as [|a0 a] eqn:Em'; [by destruct m|]. rewrite <-Em' in *. clear Em' a0 a.
      assert (exists d3, (if present d2 (m ++ [⌜"Auxiliary"⌝]) then copy d2 (m ++ [⌜"Auxiliary"⌝]) (t ++ [⌜"Auxiliary"⌝]) else Ok d2) = Ok d3 /\
        (match d !! (m ++ [⌜"Auxiliary"⌝]) with
         | Some _ => mirrored d (m ++ [⌜"Auxiliary"⌝]) d3 (t ++ [⌜"Auxiliary"⌝])
         | None => nothing d3 (t ++ [⌜"Auxiliary"⌝])
         end) /\ (forall q, ~ (t ++ [⌜"Auxiliary"⌝]) `prefix_of` q -> d3 !! q = d2 !! q)) as (d3&E3&A3&B3).
      { assert (forall r, d2 !! (t ++ ⌜"Auxiliary"⌝ :: r) = None) as Hfr.
        { intros r. rewrite B2; [by apply Hfresh|]. intros H. apply app_snoc_prefix in H. discriminate. }
        unfold present. rewrite Ea. destruct (d !! (m ++ [⌜"Auxiliary"⌝])) as [ea|].
        - destruct (copy_spec d2 (m ++ [⌜"Auxiliary"⌝]) (t ++ [⌜"Auxiliary"⌝]) ea) as (d3&E3&A3&B3).
          + done.
          + left. split; [apply Hfr|]. rewrite removelast_last, B2; [done|]. intros [k H]. rewrite <-app_assoc, <-(app_nil_r t) in H at 1.
            apply app_inv_head in H. discriminate.
          + intros r Hr. rewrite <-app_assoc. apply Hfr.
          + exists d3. split; [done|]. split; [|done]. intros r. rewrite A3. unfold m. rewrite <-!app_assoc. apply Hs2.
        - exists d2. split; [done|]. split; [|done]. intros r. rewrite <-app_assoc. apply Hfr. }
      rewrite E3. cbn [rbind]. exists d3, (paths ++ [t ++ [⌜"WorkingCopy"⌝]]). split; [done|].
      assert (forall q, ~ t `prefix_of` q -> d3 !! q = d1 !! q) as Ho3.
      { intros q Hq. rewrite B3, B2; [done| |]; intros H; apply Hq; (etrans; [apply prefix_of_app|exact H]). }
      assert (forall x y, x <> y -> forall r, ~ (t ++ [x]) `prefix_of` (t ++ y :: r)) as Hxy.
      { intros x y Hne r H. by apply app_snoc_prefix in H. }
      split; [|split; [|split]].
      + intros q Hq. rewrite Ho3 by done. by apply Ho1.
      + intros r. rewrite Ho3 by apply (not_below_M rel r). apply Hs1.
      + intros _ _. split; [|done]. split; [|split; [|split]].
        * rewrite B3, B2; [done| |]; intros [k H]; rewrite <-app_assoc, <-(app_nil_r t) in H at 1; apply app_inv_head in H; discriminate.
        * assert (forall r, d3 !! ((t ++ [⌜"WorkingCopy"⌝]) ++ r) = d2 !! ((t ++ [⌜"WorkingCopy"⌝]) ++ r)) as Hsame.
          { intros r. apply B3. rewrite <-app_assoc. by apply Hxy. }
          destruct (d !! (m ++ [⌜"WorkingCopy"⌝])); intros r; [by rewrite Hsame|]. specialize (Hsame r). rewrite <-app_assoc in Hsame. by rewrite Hsame.
        * exact A3.
        * intros n H1 H2 r. rewrite <-app_assoc. rewrite B3, B2; [by apply Hfresh| |]; cbn [app]; by apply Hxy.
      + intros [?|?]; [done|]. exfalso. apply Hnin. unfold working. by rewrite HP.
    - (* without *)
      rewrite HP.
      unfold present. assert (d1 !! m = Some Folder) as Em1 by (unfold m; rewrite Hs1; exact Em). rewrite Em1.
      destruct (copy_spec d1 m t Folder) as (d2&E2&A2&B2); [done|by right|done|]. rewrite E2. cbn [rbind].
      assert (same_materials d d2) as Hs2.
      { intros r. rewrite B2; [apply Hs1|]. apply (not_below_M rel r). }
      rewrite (Hp d2 Hs2), HP. cbn [rbind].
      exists d2, (paths ++ [t]). split; [done|]. split; [|split; [|split]].
      + intros q Hq. rewrite B2 by done. by apply Ho1.
      + done.
      + intros _ _. split; [|done]. intros r. rewrite A2. unfold m. rewrite <-!app_assoc. apply Hs1.
      + intros [?|?]; [done|]. exfalso. apply Hnin. unfold working. by rewrite HP.
  Qed.
End locations.
