From Coq Require Import Ascii.
From stdpp Require Import list list_numbers.
From Verif.Base Require Import Outcome ListLemmas.
From Verif.Text Require Import Model.
From Verif.Graph Require Import Model ModelWeighted Spec SpecWeighted ModelTree SpecTree.
From Verif.Suite Require Import Model Spec Proofs.
Local Open Scope res_scope.

Section marks.
  Context {A B : Type} (m : A -> B -> bool).

  (** One call after another. *)
  Definition mark_all (xs : list B) (l : list (A * bool)) : list (A * bool) := foldl (fun l x => (find_mark (fun a => m a x) l).2) l xs.

  Lemma find_mark_found (p : A -> bool) l : (find_mark p l).1 = existsb p (map fst l).
  Proof. induction l as [|[a b] l IH]; [done|]. cbn. destruct (p a); [done|]. destruct (find_mark p l). cbn in *. by rewrite IH. Qed.

  Lemma find_mark_keys (p : A -> bool) l : map fst (find_mark p l).2 = map fst l.
  Proof. induction l as [|[a b] l IH]; [done|]. cbn. destruct (p a); [done|]. destruct (find_mark p l). cbn in *. by rewrite IH. Qed.

  Lemma find_mark_flag x l : forall j a b, l !! j = Some (a, b) ->
    exists b', (find_mark (fun a => m a x) l).2 !! j = Some (a, b') /\ (b' = true <-> b = true \/ first_met m (map fst l) j x).
  Proof.
    induction l as [|[a0 b0] l IH]; intros j a b Hj; [done|]. cbn [find_mark]. destruct (m a0 x) eqn:E0.
    - destruct j as [|j]; cbn in *.
      + injection Hj as -> ->. exists true. split; [done|]. split; [|done]. intros _. right. split; [by exists a|]. intros; lia.
      + exists b. split; [done|]. split; [by left|]. intros [?|[_ H]]; [done|]. specialize (H 0 a0 ltac:(lia) eq_refl). congruence.
    - destruct j as [|j]; cbn in Hj.
      + injection Hj as -> ->. exists b. destruct (find_mark _ l). cbn. split; [done|]. split; [by left|].
        intros [?|[(a' & Ha & H) _]]; [done|]. cbn in Ha. congruence.
      + destruct (IH j a b Hj) as (b' & H1 & H2). exists b'. destruct (find_mark _ l) as [r l2]. cbn in *. split; [done|]. rewrite H2.
        split; (intros [?|[(a' & Ha & Hm) Hf]]; [by left|right]).
        * split; [by exists a'|]. intros [|j'] a'' Hl Hj'; cbn in Hj'; [by injection Hj' as <-|]. apply (Hf j' a''); [lia|done].
        * split; [by exists a'|]. intros j' a'' Hl Hj'. apply (Hf (S j') a''); [lia|done].
  Qed.

  Lemma mark_all_keys xs : forall l, map fst (mark_all xs l) = map fst l.
  Proof.
    induction xs as [|x xs IH]; intros l; [done|]. change (mark_all (x :: xs) l) with (mark_all xs (find_mark (fun a => m a x) l).2).
    by rewrite IH, find_mark_keys.
  Qed.

  Lemma mark_all_flag xs : forall l j a b, l !! j = Some (a, b) ->
    exists b', mark_all xs l !! j = Some (a, b') /\ (b' = true <-> b = true \/ exists x, x ∈ xs /\ first_met m (map fst l) j x).
  Proof.
    induction xs as [|x xs IH]; intros l j a b Hj.
    - exists b. split; [done|]. split; [by left|]. intros [?|(x & H & _)]; [done|by apply elem_of_nil in H].
    - destruct (find_mark_flag x l j a b Hj) as (b1 & H1 & H2). destruct (IH _ _ _ _ H1) as (b2 & H3 & H4). exists b2. split; [done|].
      rewrite H4, H2, find_mark_keys. split.
      + intros [[?|?]|(y & Hy & ?)]; [by left|right; exists x; split; [left|done]|right; exists y; split; [by right|done]].
      + intros [?|(y & [->|Hy]%elem_of_cons & ?)]; [by left; left|by left; right|right; eauto].
  Qed.

  Lemma mark_all_marks xs (l : list A) : marks m l xs (mark_all xs (map (fun a => (a, false)) l)).
  Proof.
    assert (Hk : map fst (map (fun a : A => (a, false)) l) = l) by (rewrite map_map; apply map_id).
    split.
    - rewrite <- (map_length fst (mark_all _ _)), mark_all_keys. by rewrite Hk.
    - intros j a Hj. destruct (mark_all_flag xs (map (fun a => (a, false)) l) j a false) as (b & H1 & H2).
      + change (map ?f l) with (f <$> l). by rewrite list_lookup_fmap, Hj.
      + exists b. split; [done|]. rewrite H2, Hk. naive_solver.
  Qed.

  Lemma mark_all_app xs ys l : mark_all (xs ++ ys) l = mark_all ys (mark_all xs l).
  Proof. apply foldl_app. Qed.
End marks.

(** *** The filter *)
Section filter.
  Context {I K : Type} (m : K -> I -> bool).
  Implicit Types f : gfilter K.

  Definition marked_opt {A B} (p : A -> B -> bool) (xs : list B) (o : option (list (A * bool))) := mark_all p xs <$> o.

  Lemma find_opt_eq {A B} (p : A -> B -> bool) (x : B) (o : option (list (A * bool))) :
    find_opt (fun a => p a x) o = (match o with None => false | Some l => existsb (fun a => p a x) (map fst l) end, marked_opt p [x] o).
  Proof. destruct o as [l|]; [|done]. cbn. rewrite <- find_mark_found. by destruct (find_mark _ l). Qed.

  Lemma find_suites_eq ns : forall (o : option (list (text * bool))),
    find_suites ns o = (match o with None => false | Some l => existsb (fun n => existsb (fun a => same_text a n) (map fst l)) ns end, marked_opt same_text ns o).
  Proof.
    induction ns as [|n ns IH]; intros o; [by destruct o|]. cbn [find_suites].
    change (fun a => bool_decide (a = n)) with (fun a => same_text a n). rewrite find_opt_eq, IH. destruct o as [l|]; [|done]. cbn [marked_opt fmap option_fmap option_map].
    rewrite mark_all_keys. done.
  Qed.

  Definition want_bool (ss : option (list text)) (is : option (list K)) (i : I) (ns : list text) : bool :=
    match ss, is with
    | None, None => true
    | _, _ => match is with None => false | Some l => existsb (fun k => m k i) l end
              || match ss with None => false | Some l => existsb (fun n => existsb (fun a => same_text a n) l) ns end
    end.

  Lemma want_bool_wanted ss is i ns : want_bool ss is i ns = true <-> wanted m ss is i ns.
  Proof.
    assert (H1 : match is with None => false | Some l => existsb (fun k => m k i) l end = true <-> exists l k, is = Some l /\ k ∈ l /\ m k i = true).
    { destruct is as [l|]; [|split; [done|intros (? & ? & ? & _); done]]. rewrite existsb_exists. split.
      - intros (k & Hk%elem_of_list_In & H). eauto.
      - intros (? & k & [= <-] & Hk & H). exists k. by rewrite <- elem_of_list_In. }
    assert (H2 : match ss with None => false | Some l => existsb (fun n => existsb (fun a => same_text a n) l) ns end = true <-> exists l n, ss = Some l /\ n ∈ l /\ n ∈ ns).
    { destruct ss as [l|]; [|split; [done|intros (? & ? & ? & _); done]]. rewrite existsb_exists. split.
      - intros (n & Hn%elem_of_list_In & (a & Ha%elem_of_list_In & H)%existsb_exists). apply bool_decide_eq_true in H as ->. eauto.
      - intros (? & n & [= <-] & Hl & Hn). exists n. rewrite <- elem_of_list_In. split; [done|]. apply existsb_exists. exists n. rewrite <- elem_of_list_In.
        split; [done|]. by apply bool_decide_eq_true. }
    unfold wanted. destruct ss as [l|], is as [l'|]; cbn [want_bool]; try (rewrite orb_true_iff, H1, H2; split; [tauto|intros [[? ?]|?]; [done|tauto]]).
    split; [|done]. intros _. by left.
  Qed.

  Definition keys f : option (list text) * option (list K) := (map fst <$> sel_suites f, map fst <$> sel_items f).

  Lemma keys_dec f : {keys f = (None, None)} + {keys f <> (None, None)}.
  Proof. destruct f as [[?|] [?|]]; [by right..|by left]. Qed.

  Lemma granular_want f i ns : (granular m f i ns).1 = want_bool (keys f).1 (keys f).2 i ns.
  Proof.
    destruct f as [ss is]. unfold granular, keys. cbn [sel_suites sel_items fst snd]. destruct ss as [ss|], is as [is|]; [| | |done];
      rewrite find_opt_eq, find_suites_eq; done.
  Qed.

  Lemma granular_state f i ns :
    (granular m f i ns).2 = if keys_dec f then f else GFilter (marked_opt same_text ns (sel_suites f)) (marked_opt m [i] (sel_items f)).
  Proof.
    destruct f as [ss is]. unfold granular, keys. cbn [sel_suites sel_items fst snd]. destruct ss as [ss|], is as [is|];
      destruct (keys_dec _); try done; rewrite find_opt_eq, find_suites_eq; done.
  Qed.

  Lemma granular_keys f i ns : keys (granular m f i ns).2 = keys f.
  Proof.
    rewrite granular_state. destruct (keys_dec f); [done|]. destruct f as [ss is]. unfold keys. cbn [sel_suites sel_items].
    destruct ss as [ss|], is as [is|]; cbn [marked_opt fmap option_fmap option_map]; by rewrite ?mark_all_keys.
  Qed.

  Lemma asked_keys l : forall f, keys (asked (granular m) l f) = keys f.
  Proof. induction l as [|x l IH]; intros f; [done|]. change (asked (granular m) (x :: l) f) with (asked (granular m) l (granular m f x.1 x.2).2). by rewrite IH, granular_keys. Qed.

  Lemma asked_state l : forall f,
    asked (granular m) l f =
      if keys_dec f then f else GFilter (marked_opt same_text (concat (map snd l)) (sel_suites f)) (marked_opt m (map fst l) (sel_items f)).
  Proof.
    induction l as [|[i ns] l IH]; intros f.
    - destruct (keys_dec f); [done|]. destruct f as [[ss|] [is|]]; done.
    - change (asked (granular m) ((i, ns) :: l) f) with (asked (granular m) l (granular m f i ns).2). rewrite (IH (granular m f i ns).2). destruct (keys_dec f) as [Hk|Hk].
      + rewrite granular_state. destruct (keys_dec f) as [_|Hn]; [|done]. by destruct (keys_dec f).
      + destruct (keys_dec (granular m f i ns).2) as [Hk2|Hk2]; [by rewrite granular_keys in Hk2|].
        rewrite granular_state. destruct (keys_dec f) as [Hn|_]; [done|]. cbn [sel_suites sel_items map concat].
        destruct f as [[ss|] [is|]]; cbn [marked_opt sel_suites sel_items fmap option_fmap option_map]; rewrite ?mark_all_app; done.
  Qed.

  Lemma make_keys ss is : keys (make_filter ss is) = (ss, is).
  Proof. unfold keys, make_filter, make_map. destruct ss, is; cbn; rewrite ?map_map, ?map_id; done. Qed.

  Lemma granular_inv ss is f i ns : keys f = (ss, is) -> (granular m f i ns).1 = want_bool ss is i ns /\ keys (granular m f i ns).2 = (ss, is).
  Proof. intros H. by rewrite granular_want, granular_keys, H. Qed.
End filter.

(** *** Results *)
Section results.
  Context {I K : Type} (m : K -> I -> bool).

  Lemma suite_leaves_all {T} (t : I -> T) s ss is :
    exists want, (forall i ns, want i ns = true <-> wanted m ss is i ns) /\
      (extract_leaves (granular m) t s (make_filter ss is)).2 = map t (map fst (List.filter (fun x => want x.1 x.2) (items_of [] s))).
  Proof.
    exists (want_bool m ss is). split; [intros; apply want_bool_wanted|].
    rewrite (extract_leaves_ok (granular m) (want_bool m ss is) (fun f => keys f = (ss, is))); [done|intros; by apply granular_inv|apply make_keys].
  Qed.

  Lemma suite_tree_all {W V} `{!EqDecision W} (w : W) (ts : suite I -> V) (ti : I -> V) s ss is :
    exists want, (forall i ns, want i ns = true <-> wanted m ss is i ns) /\
      (extract_tree (granular m) Directed Forward w ts ti s (make_filter ss is)).2 =
        match wanted_tree want ts ti [] s with None => Ok (Done (WGraph [] [])) | Some t => make_tree Directed Forward w t end.
  Proof.
    exists (want_bool m ss is). split; [intros; apply want_bool_wanted|].
    rewrite (extract_tree_ok w (granular m) (want_bool m ss is) (fun f => keys f = (ss, is))); [done|intros; by apply granular_inv|apply make_keys].
  Qed.

  Lemma suite_tree_into_all {W V} `{!EqDecision W} (w : W) (ts : suite I -> V) (ti : I -> V) s ss is (g : wgraph W V) ps p :
    consistent Directed g -> tree_rep Forward (edges g) ps -> ordered ps -> p < length ps ->
    exists want g', (forall i ns, want i ns = true <-> wanted m ss is i ns) /\
      (extract_tree_into (granular m) Directed Forward w ts ti s (make_filter ss is) g p).2 = Ok (Done g') /\
      match wanted_tree want ts ti [] s with
      | None => g' = g
      | Some t => let ps' := ps ++ tree_parents (Some p) (length ps) t in
          consistent Directed g' /\ tree_rep Forward (edges g') ps' /\ ordered ps' /\ weights g' = weights g ++ preorder t
      end.
  Proof.
    intros Hc Hr Ho Hp. exists (want_bool m ss is).
    destruct (extract_tree_into_ok (V := V) w (granular m) (want_bool m ss is) (fun f => keys f = (ss, is))) with (ts := ts) (ti := ti) (s := s) (f := make_filter (K := K) ss is) (g := g) (ps := ps) (p := p)
      as (g' & H1 & H2); [intros; by apply granular_inv|apply make_keys|by split|done|].
    exists g'. split; [intros; apply want_bool_wanted|]. rewrite H1. split; [done|]. destruct (wanted_tree _ _ _ _ _); [|done].
    destruct H2 as [[] ?]. done.
  Qed.

  (** The filter ends the same way for all. *)
  Lemma suite_filter_same {T W V} `{!EqDecision W} (w : W) (t : I -> T) (ts : suite I -> V) (ti : I -> V) s ss is :
    (extract_tree (granular m) Directed Forward w ts ti s (make_filter ss is)).1 = (extract_leaves (granular m) t s (make_filter ss is)).1.
  Proof.
    rewrite (extract_tree_ok w (granular m) (want_bool m ss is) (fun f => keys f = (ss, is))); [|intros; by apply granular_inv|apply make_keys].
    rewrite (extract_leaves_ok (granular m) (want_bool m ss is) (fun f => keys f = (ss, is))); [done|intros; by apply granular_inv|apply make_keys].
  Qed.

  Lemma suite_filter_into {T W V} `{!EqDecision W} (w : W) (t : I -> T) (ts : suite I -> V) (ti : I -> V) s ss is (g : wgraph W V) ps p :
    consistent Directed g -> tree_rep Forward (edges g) ps -> ordered ps -> p < length ps ->
    (extract_tree_into (granular m) Directed Forward w ts ti s (make_filter ss is) g p).1 = (extract_leaves (granular m) t s (make_filter ss is)).1.
  Proof.
    intros Hc Hr Ho Hp.
    destruct (extract_tree_into_ok (V := V) w (granular m) (want_bool m ss is) (fun f => keys f = (ss, is))) with (ts := ts) (ti := ti) (s := s) (f := make_filter (K := K) ss is) (g := g) (ps := ps) (p := p)
      as (g' & H1 & H2); [intros; by apply granular_inv|apply make_keys|by split|done|]. rewrite H1.
    rewrite (extract_leaves_ok (granular m) (want_bool m ss is) (fun f => keys f = (ss, is))); [done|intros; by apply granular_inv|apply make_keys].
  Qed.

  Lemma suite_marks_all {T} (t : I -> T) s ss is :
    let f := (extract_leaves (granular m) t s (make_filter ss is)).1 in
    match is with None => sel_items f = None | Some l => exists l', sel_items f = Some l' /\ marks m l (map fst (items_of [] s)) l' end /\
    match ss with None => sel_suites f = None | Some l => exists l', sel_suites f = Some l' /\ marks same_text l (concat (map snd (items_of [] s))) l' end.
  Proof.
    cbn zeta. rewrite (extract_leaves_ok (granular m) (want_bool m ss is) (fun f => keys f = (ss, is))); [|intros; by apply granular_inv|apply make_keys].
    cbn [fst]. rewrite asked_state. destruct (keys_dec _) as [Hk|_].
    { rewrite make_keys in Hk. injection Hk as -> ->. done. }
    unfold make_filter, make_map. cbn [sel_suites sel_items]. split.
    - destruct is as [l|]; [|done]. eexists. split; [done|]. apply mark_all_marks.
    - destruct ss as [l|]; [|done]. eexists. split; [done|]. apply mark_all_marks.
  Qed.

  Lemma marks_missing {A B} (p : A -> B -> bool) (l : list A) (xs : list B) l' a :
    marks p l xs l' -> a ∈ l -> (forall x, x ∈ xs -> p a x = false) -> a ∈ missing (Some l').
  Proof.
    intros [Hl H] [j Hj]%elem_of_list_lookup Hno. destruct (H j a Hj) as (b & H1 & H2). unfold missing.
    apply elem_of_list_In, in_map_iff. exists (a, b). split; [done|]. apply elem_of_list_In, elem_of_list_filter. split; [|by eapply elem_of_list_lookup_2].
    cbn. destruct b; [|done]. destruct (proj1 H2 eq_refl) as (x & Hx & [(a' & Ha & Hm) _]). assert (a' = a) as -> by congruence. rewrite (Hno x Hx) in Hm. done.
  Qed.

  Lemma marks_missing_iff {A B} (p : A -> B -> bool) (l : list A) (xs : list B) l' a :
    marks p l xs l' -> NoDup l -> (forall x b c, x ∈ xs -> b ∈ l -> c ∈ l -> p b x = true -> p c x = true -> b = c) ->
    a ∈ missing (Some l') <-> a ∈ l /\ forall x, x ∈ xs -> p a x = false.
  Proof.
    intros Hm Hnd Hone. split; [|intros [? ?]; by eapply marks_missing]. destruct Hm as [Hl H]. unfold missing.
    intros ([a' b] & Ha & Hin%elem_of_list_In)%elem_of_list_In%in_map_iff. cbn in Ha. subst a'.
    apply elem_of_list_filter in Hin as [Hb [j Hj]%elem_of_list_lookup]. cbn in Hb. subst b.
    destruct (lookup_lt_is_Some_2 l j) as [a' Ha']; [apply lookup_lt_Some in Hj; lia|]. destruct (H j a' Ha') as (b & H1 & H2).
    assert (a' = a /\ b = false) as [-> ->] by (split; congruence). split; [by eapply elem_of_list_lookup_2|].
    intros x Hx. destruct (p a x) eqn:E; [|done]. assert (false = true); [|done]. apply H2. exists x. split; [done|]. split; [by exists a|].
    intros j' a' Hlt Hj'. destruct (p a' x) eqn:E'; [|done]. exfalso.
    assert (a' = a) as -> by (apply (Hone x); [done|by eapply elem_of_list_lookup_2|by eapply elem_of_list_lookup_2|done|done]).
    pose proof (NoDup_lookup _ _ _ _ Hnd Hj' Ha'). lia.
  Qed.

  (** Selections may be added one by one. *)
  Lemma added_suites ns (f : gfilter K) : sel_suites f = None -> ns <> [] ->
    foldl (fun f n => add_selected_suite n f) f ns = GFilter (make_map (Some ns)) (sel_items f).
  Proof.
    intros Hf Hne. destruct ns as [|n ns]; [done|]. cbn [foldl]. replace (add_selected_suite n f) with (GFilter (Some [(n, false)]) (sel_items f)) by (unfold add_selected_suite; by rewrite Hf).
    assert (H : forall l is, foldl (fun (f : gfilter K) n => add_selected_suite n f) (GFilter (Some l) is) ns = GFilter (Some (l ++ map (fun a => (a, false)) ns)) is).
    { clear. induction ns as [|n ns IH]; intros l is; [by rewrite app_nil_r|]. cbn [foldl]. change (add_selected_suite n (GFilter (Some l) is)) with (GFilter (Some (l ++ [(n, false)])) is). rewrite IH. by rewrite <- app_assoc. }
    by rewrite H.
  Qed.

  Lemma added_items (ks : list K) (f : gfilter K) : sel_items f = None -> ks <> [] ->
    foldl (fun f n => add_selected_item n f) f ks = GFilter (sel_suites f) (make_map (Some ks)).
  Proof.
    intros Hf Hne. destruct ks as [|n ks]; [done|]. cbn [foldl]. replace (add_selected_item n f) with (GFilter (sel_suites f) (Some [(n, false)])) by (unfold add_selected_item; by rewrite Hf).
    assert (H : forall l is, foldl (fun (f : gfilter K) n => add_selected_item n f) (GFilter is (Some l)) ks = GFilter is (Some (l ++ map (fun a => (a, false)) ks))).
    { clear. induction ks as [|n ks IH]; intros l is; [by rewrite app_nil_r|]. cbn [foldl]. change (add_selected_item n (GFilter is (Some l))) with (GFilter is (Some (l ++ [(n, false)]))). rewrite IH. by rewrite <- app_assoc. }
    by rewrite H.
  Qed.
End results.
