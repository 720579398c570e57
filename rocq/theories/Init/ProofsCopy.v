(** Sequoia is copied. *)
From Coq Require Import Ascii String.
From stdpp Require Import list gmap strings.
From Verif.Base Require Import Outcome ListLemmas.
From Verif.Text Require Import Model.
From Verif.Materials Require Import Model Spec Proofs ProofsSuites.
From Verif.Creator Require Import Model.
From Verif.Init Require Import Model Spec ProofsCheck.
Local Open Scope res_scope.
Local Notation "⌜ s ⌝" := (list_ascii_of_string s%string).
Local Notation length := List.length.

Lemma below_app p r : below p (p ++ r) = Some r.
Proof. by apply below_Some. Qed.

(** Everything below [p] lies in folders. *)
Definition orderly (d : disk) (p : path) : Prop := forall q s, p `prefix_of` q -> s <> [] -> is_Some (d !! (q ++ s)) -> d !! q = Some Folder.

Lemma in_folders_orderly d p : in_folders d -> p <> [] -> orderly d p.
Proof.
  intros Hd Hp q s Hq. assert (q <> []) as Hne by (destruct Hq as [k ->]; by destruct p). clear Hq. revert q Hne.
  induction s as [|n s IH] using rev_ind; intros q Hq Hs H; [done|]. rewrite app_assoc in H. pose proof (Hd (q ++ s) n H) as H'.
  assert (q ++ s <> []) as Hqs by (by destruct q). specialize (H' Hqs). destruct s as [|k s]; [by rewrite app_nil_r in H'|].
  apply IH; [done|done|]. rewrite H'. by exists Folder.
Qed.

Lemma disjoint_below p q r s : disjoint_paths p q -> p ++ r <> q ++ s.
Proof.
  intros [H1 H2] E. destruct (prefix_weak_total p q (p ++ r)) as [H|H]; [by exists r|exists s; exact E|done|done].
Qed.

Lemma into_itself_false p q : ~ p `prefix_of` q -> into_itself p q = false.
Proof. intros H. unfold into_itself. apply below_None in H. by rewrite H. Qed.

Lemma copies_elem d from to y : y ∈ copies d from to -> exists r, y.1 = to ++ r /\ d !! (from ++ r) = Some y.2.
Proof.
  intros H. unfold copies in H. apply elem_of_list_omap in H as ([p e]&Hin&H). cbn [fst snd] in H. apply elem_of_map_to_list in Hin.
  destruct (below from p) as [r|] eqn:E; [|done]. injection H as <-. apply below_Some in E. subst p. by exists r.
Qed.

Lemma union_lookup (d1 d2 : disk) q : (d1 ∪ d2) !! q = match d1 !! q with Some e => Some e | None => d2 !! q end.
Proof.
  rewrite lookup_union. destruct (d1 !! q), (d2 !! q); done.
Qed.

(** A folder, to where nothing is *)
Lemma copy_subdir_spec d target dir n : d !! target = Some Folder -> (forall s, d !! (target ++ n :: s) = None) ->
  ~ (dir ++ [n]) `prefix_of` (target ++ [n]) ->
  exists d', copy_subdir d target (dir ++ [n]) = Ok d' /\
    forall q, d' !! q = match below (target ++ [n]) q with Some s => d !! (dir ++ n :: s) | None => d !! q end.
Proof.
  intros Ht Hn Hi. unfold copy_subdir. cbv zeta. rewrite List.last_last, Ht, into_itself_false by done.
  assert (existsb (fun x : path * entry => match d !! x.1 with Some e => negb (is_folder e && is_folder x.2) | None => false end)
    (copies d (dir ++ [n]) (target ++ [n])) = false) as ->.
  { apply not_true_iff_false. intros H. apply existsb_exists in H as (y&Hy&H). apply elem_of_list_In, copies_elem in Hy as (r&E&_).
    rewrite E, <-app_assoc in H. cbn [app] in H. by rewrite Hn in H. }
  eexists. split; [reflexivity|]. intros q. rewrite union_lookup, copies_lookup. destruct (below (target ++ [n]) q) as [s|] eqn:E; [|done].
  rewrite <-app_assoc. cbn [app]. apply below_Some in E. subst q. rewrite <-app_assoc. cbn [app]. rewrite Hn. by destruct (d !! (dir ++ n :: s)).
Qed.

(** A file *)
Lemma copy_file_spec d location source n c : d !! location = Some Folder -> d !! (location ++ [n]) = None -> d !! (source ++ [n]) = Some c ->
  copy_file d (source ++ [n]) location = Ok (<[location ++ [n] := c]> d).
Proof. intros Hl Hn Hs. unfold copy_file. rewrite Hs, Hl. cbv zeta. rewrite List.last_last. unfold present. by rewrite Hn. Qed.

Lemma remove_spec d p : d !! p <> Some Folder -> remove d p = Ok (delete p d).
Proof. intros H. unfold remove. destruct (d !! p) as [[c|]|] eqn:E; [done|done|]. by rewrite delete_notin. Qed.

Section sequoia.
  Context (parent location source : path) (D : disk).
  Hypothesis HD : orderly D parent.
  Hypothesis Hdis : disjoint_paths parent location.
  Hypothesis Hsource : source = parent \/ source = sequoia_root parent.
  Implicit Types (d : disk) (n : text) (q : path).

  Lemma parent_not_nil : parent <> [].
  Proof using Hdis. destruct Hdis as [H _]. intros E. apply H. rewrite E. apply prefix_nil. Qed.
  Lemma source_below : exists u, source = parent ++ u.
  Proof using Hsource. destruct Hsource as [->| ->]; [exists []; by rewrite app_nil_r|by eexists]. Qed.
  Lemma source_disjoint : disjoint_paths source location.
  Proof using Hdis Hsource.
    destruct source_below as [u ->]. split.
    - intros [k E]. rewrite <-app_assoc in E. apply (disjoint_below parent location (u ++ k) [] Hdis). by rewrite app_nil_r.
    - intros [k E]. by apply (disjoint_below parent location u k Hdis).
  Qed.
  Lemma source_not_nil : source <> [].
  Proof using Hdis Hsource. destruct source_below as [u E]. pose proof parent_not_nil as Hp. rewrite E. intros [? _]%app_eq_nil. exact (Hp H). Qed.

  (** The wanted parts of the output *)
  Definition wanted_output (k : text) : bool :=
    bool_decide (k ∈ [⌜"DiagnosticsOutput"⌝; ⌜"TestSummaries"⌝] /\ D !! (output_dir parent ++ [k]) = Some Folder).

  Lemma snoc_eq (p : path) a b : p ++ [a] = p ++ [b] <-> a = b.
  Proof using. split; [|by intros ->]. intros H. apply app_inv_head in H. by injection H. Qed.

  Lemma copy_some_spec ns : forall d, NoDup ns ->
    (forall s, d !! (output_dir parent ++ s) = D !! (output_dir parent ++ s)) ->
    d !! output_dir location = Some Folder ->
    (forall k s, k ∈ ns -> d !! (output_dir location ++ k :: s) = None) ->
    exists d', copy_some parent d (output_dir location) (output_dir parent) ns = Ok d' /\
      forall q, d' !! q = match below (output_dir location) q with
                | Some (k :: s) => if decide (k ∈ ns) then (if wanted_output k then D !! (output_dir parent ++ k :: s) else None) else d !! q
                | _ => d !! q
                end.
  Proof using HD Hdis Hsource.
    induction ns as [|n ns IH]; intros d Hnd Hs Hl Hn.
    { exists d. split; [done|]. intros q. by destruct (below _ q) as [[|k s]|]. }
    apply NoDup_cons in Hnd as [Hni Hnd]. cbn [copy_some]. cbv zeta.
    assert (exists d1, match d !! (output_dir parent ++ [n]) with
               | Some Folder => if bool_decide (output_dir parent ++ [n] = diagnostics parent) || bool_decide (output_dir parent ++ [n] = test_summaries parent)
                                then copy_subdir d (output_dir location) (output_dir parent ++ [n]) else Ok d
               | _ => Ok d
               end = Ok d1 /\ forall q, d1 !! q = match below (output_dir location) q with
                | Some (k :: s) => if decide (k = n) then (if wanted_output k then D !! (output_dir parent ++ k :: s) else None) else d !! q
                | _ => d !! q
                end) as (d1&E1&H1).
    { assert (wanted_output n = match d !! (output_dir parent ++ [n]) with Some Folder =>
          bool_decide (output_dir parent ++ [n] = diagnostics parent) || bool_decide (output_dir parent ++ [n] = test_summaries parent) | _ => false end) as EW.
      { unfold wanted_output. rewrite Hs. destruct (D !! (output_dir parent ++ [n])) as [[c|]|].
        - apply bool_decide_false. by intros [_ ?].
        - apply eq_true_iff_eq. rewrite orb_true_iff, !bool_decide_eq_true. unfold diagnostics, test_summaries. rewrite !snoc_eq.
          rewrite elem_of_cons, elem_of_list_singleton. tauto.
        - apply bool_decide_false. by intros [_ ?]. }
      assert (wanted_output n = false -> forall q, d !! q = match below (output_dir location) q with
                | Some (k :: s) => if decide (k = n) then (if wanted_output k then D !! (output_dir parent ++ k :: s) else None) else d !! q
                | _ => d !! q end) as HF.
      { intros HF q. destruct (below _ q) as [[|k s]|] eqn:E; [done| |done]. destruct (decide (k = n)) as [->|]; [|done]. rewrite HF.
        apply below_Some in E. subst q. apply Hn. left. }
      destruct (d !! (output_dir parent ++ [n])) as [[c|]|] eqn:En; [exists d; split; [done|by apply HF]| |exists d; split; [done|by apply HF]].
      rewrite <-EW. destruct (wanted_output n) eqn:W; [|exists d; split; [done|by apply HF]].
      destruct (copy_subdir_spec d (output_dir location) (output_dir parent) n) as (d1&E1&H1); [done|intros s; apply Hn; left| |].
      { intros [k Hk]. unfold output_dir in Hk. rewrite <-!app_assoc in Hk. by apply (disjoint_below parent location _ _ Hdis (eq_sym Hk)). }
      exists d1. split; [done|]. intros q. rewrite H1. destruct (below (output_dir location) q) as [[|k s]|] eqn:E.
      - apply below_Some in E. rewrite app_nil_r in E. subst q. destruct (below (output_dir location ++ [n]) (output_dir location)) as [s|] eqn:E; [|done].
        apply below_Some in E. exfalso. apply (f_equal length) in E. rewrite !app_length in E. cbn in E. lia.
      - apply below_Some in E. subst q. destruct (decide (k = n)) as [->|Hk].
        + replace (output_dir location ++ n :: s) with ((output_dir location ++ [n]) ++ s) by (by rewrite <-app_assoc). rewrite below_app, W. apply Hs.
        + destruct (below (output_dir location ++ [n]) _) as [t|] eqn:E; [|done]. apply below_Some in E. rewrite <-app_assoc in E. apply app_inv_head in E. by injection E as ? ?.
      - apply below_None in E. destruct (below (output_dir location ++ [n]) q) as [t|] eqn:E2; [|done]. apply below_Some in E2. subst q. destruct E. rewrite <-app_assoc. by eexists. }
    rewrite E1. cbn [rbind]. destruct (IH d1) as (d'&E'&H'); [done| | | |].
    - intros s. rewrite H1. destruct (below (output_dir location) (output_dir parent ++ s)) as [u|] eqn:E; [|apply Hs].
      apply below_Some in E. unfold output_dir in E. rewrite <-!app_assoc in E. by apply (disjoint_below parent location _ _ Hdis) in E.
    - rewrite H1. pose proof (below_app (output_dir location) []) as E. rewrite app_nil_r in E. by rewrite E.
    - intros k s Hk. rewrite H1, below_app. destruct (decide (k = n)) as [->|]; [done|]. apply Hn. by right.
    - exists d'. split; [done|]. intros q. rewrite H', H1. destruct (below (output_dir location) q) as [[|k s]|] eqn:E; [done| |done].
      destruct (decide (k ∈ ns)) as [Hk|Hk].
      + by rewrite decide_True by (by right).
      + destruct (decide (k = n)) as [->|Hkn]; [by rewrite decide_True by left|]. rewrite decide_False; [done|]. rewrite elem_of_cons. tauto.
  Qed.

  Lemma copy_entry_spec n d : is_Some (D !! (source ++ [n])) ->
    (forall s, d !! (parent ++ s) = D !! (parent ++ s)) -> d !! location = Some Folder -> (forall s, d !! (location ++ n :: s) = None) ->
    exists d', match d !! (source ++ [n]) with
                   | Some Folder =>
                       if decide (source ++ [n] = output_dir parent) then copy_output parent d (output_dir location) (source ++ [n])
                       else if decide (source ++ [n] <> build_dir parent) then copy_subdir d location (source ++ [n]) else Ok d
                   | _ => copy_file d (source ++ [n]) location
                   end = Ok d' /\
      forall q, d' !! q = match below (location ++ [n]) q with
                          | Some s => if part D parent source (n :: s) then D !! (source ++ n :: s) else None
                          | None => d !! q
                          end.
  Proof using HD Hdis Hsource.
    intros Hin Hs Hl Hn. destruct source_below as [u Hu].
    assert (forall s, d !! (source ++ s) = D !! (source ++ s)) as HS by (intros s; rewrite Hu, <-app_assoc; apply Hs).
    assert (forall b, source ++ [n] = parent ++ [b] <-> source = parent /\ n = b) as HP.
    { intros b. split; [|by intros [-> ->]]. intros E. destruct Hsource as [->| ->]; [split; [done|]; by apply snoc_eq in E|].
      apply (f_equal length) in E. unfold sequoia_root in E. rewrite !app_length in E. cbn in E. lia. }
    assert (~ (source ++ [n]) `prefix_of` (location ++ [n])) as Hi.
    { intros [k Hk]. rewrite <-app_assoc in Hk. by apply (disjoint_below source location _ _ source_disjoint (eq_sym Hk)). }
    rewrite HS. destruct (D !! (source ++ [n])) as [[c|]|] eqn:E; [| |by destruct Hin].
    - rewrite (copy_file_spec d location source n (File c)); [|done|apply Hn|by rewrite HS]. eexists. split; [reflexivity|].
      intros q. destruct (below (location ++ [n]) q) as [s|] eqn:Eb.
      + apply below_Some in Eb. subst q. destruct s as [|k s].
        * rewrite app_nil_r, lookup_insert. unfold part. rewrite !E. rewrite !decide_False by (by intros (_&_&?)). done.
        * rewrite lookup_insert_ne by (intros E2; apply (f_equal length) in E2; rewrite !app_length in E2; cbn in E2; lia).
          rewrite <-app_assoc. cbn [app]. rewrite Hn. destruct (part _ _ _ _); [|done].
          destruct (D !! (source ++ n :: k :: s)) as [e|] eqn:E3; [|done]. exfalso.
          assert (D !! (source ++ [n]) = Some Folder) as E4; [|congruence].
          apply (HD _ (k :: s)); [rewrite Hu, <-app_assoc; by eexists|done|]. rewrite <-app_assoc. cbn [app]. rewrite E3. by eexists.
      + rewrite lookup_insert_ne; [done|]. intros <-. apply below_None in Eb. by apply Eb.
    - destruct (decide (source ++ [n] = output_dir parent)) as [Ho|Ho].
      + pose proof (proj1 (HP _) Ho) as [E1 E2]. unfold copy_output. unfold present. rewrite Ho, E2 in *. unfold output_dir at 1. rewrite Hn.
        unfold create_directory. unfold output_dir at 1 2. rewrite Hn, removelast_last, Hl. cbn [rbind].
        set (d1 := <[output_dir location := Folder]> d).
        assert (forall s, d1 !! (parent ++ s) = D !! (parent ++ s)) as Hd1.
        { intros s. unfold d1. rewrite lookup_insert_ne; [apply Hs|]. unfold output_dir. intros E3. by apply (disjoint_below parent location _ _ Hdis (eq_sym E3)). }
        destruct (copy_some_spec (children d1 (output_dir parent)) d1) as (d'&E'&H').
        * apply NoDup_children.
        * intros s. unfold output_dir. rewrite <-app_assoc. apply Hd1.
        * apply lookup_insert.
        * intros k s _. unfold d1. rewrite lookup_insert_ne; [unfold output_dir; rewrite <-app_assoc; apply Hn|].
          intros E3. apply (f_equal length) in E3. rewrite app_length in E3. cbn in E3. lia.
        * exists d'. split; [exact E'|]. intros q. rewrite H'. change (location ++ [⌜"output"⌝]) with (output_dir location).
          destruct (below (output_dir location) q) as [s|] eqn:Eb.
          2: { unfold d1. rewrite lookup_insert_ne; [done|]. intros <-. apply below_None in Eb. by apply Eb. }
          apply below_Some in Eb. subst q. unfold part. rewrite E1 in *. change (parent ++ [⌜"output"⌝]) with (output_dir parent) in *.
          rewrite decide_False by (intros (_&?&_); done). rewrite decide_True by done. destruct s as [|k s].
          { rewrite app_nil_r. unfold d1. rewrite lookup_insert. change (Some Folder = D !! output_dir parent). by rewrite E. }
          replace (parent ++ ⌜"output"⌝ :: k :: s) with (output_dir parent ++ k :: s) by (unfold output_dir; by rewrite <-app_assoc).
          replace (parent ++ [⌜"output"⌝; k]) with (output_dir parent ++ [k]) by (unfold output_dir; by rewrite <-app_assoc).
          fold (wanted_output k). assert (output_dir parent ++ k :: s = (output_dir parent ++ [k]) ++ s) as Eks by (by rewrite <-app_assoc).
          destruct (decide (k ∈ children d1 (output_dir parent))) as [Hk|Hk]; [done|].
          assert (D !! (output_dir parent ++ [k]) = None) as Hk0.
          { destruct (D !! (output_dir parent ++ [k])) eqn:Hk0; [|done]. destruct Hk. apply elem_of_children. unfold output_dir. rewrite <-app_assoc, Hd1.
            unfold output_dir in Hk0. rewrite <-app_assoc in Hk0. rewrite Hk0. by eexists. }
          assert (wanted_output k = false) as ->. { unfold wanted_output. apply bool_decide_false. rewrite Hk0. by intros [_ ?]. }
          unfold d1. rewrite lookup_insert_ne; [unfold output_dir; rewrite <-app_assoc; apply Hn|].
          intros E3. apply (f_equal length) in E3. rewrite app_length in E3. cbn in E3. lia.
      + destruct (decide (source ++ [n] <> build_dir parent)) as [Hb|Hb].
        * destruct (copy_subdir_spec d location source n Hl Hn Hi) as (d'&E'&H'). exists d'. split; [done|]. intros q. rewrite H'.
          destruct (below (location ++ [n]) q) as [s|]; [|done]. rewrite HS. unfold part.
          rewrite decide_False by (intros (E1&E2&_); apply Hb; unfold build_dir; by apply HP).
          rewrite decide_False by (intros (E1&E2&_); apply Ho; unfold output_dir; by apply HP). done.
        * apply dec_stable in Hb. unfold build_dir in Hb. apply HP in Hb as [E1 E2]. exists d. split; [done|]. intros q.
          destruct (below (location ++ [n]) q) as [s|] eqn:Eb; [|done]. apply below_Some in Eb. subst q. rewrite <-app_assoc. cbn [app]. rewrite Hn.
          unfold part. rewrite decide_True; done.
  Qed.

  Lemma copy_entries_spec ns : forall d, NoDup ns -> (forall n, n ∈ ns -> is_Some (D !! (source ++ [n]))) ->
    (forall s, d !! (parent ++ s) = D !! (parent ++ s)) -> d !! location = Some Folder ->
    (forall n s, n ∈ ns -> d !! (location ++ n :: s) = None) ->
    exists d', copy_entries parent d location source ns = Ok d' /\
      forall q, d' !! q = match below location q with
                          | Some (n :: s) => if decide (n ∈ ns) then (if part D parent source (n :: s) then D !! (source ++ n :: s) else None) else d !! q
                          | _ => d !! q
                          end.
  Proof using HD Hdis Hsource.
    induction ns as [|n ns IH]; intros d Hnd Hin Hs Hl Hn.
    { exists d. split; [done|]. intros q. by destruct (below _ q) as [[|k s]|]. }
    apply NoDup_cons in Hnd as [Hni Hnd]. cbn [copy_entries]. cbv zeta.
    destruct (copy_entry_spec n d) as (d1&E1&H1); [apply Hin; left|done|done|intros s; apply Hn; left|].
    rewrite E1. cbn [rbind]. assert (forall k s, below (location ++ [n]) (location ++ k :: s) = if decide (k = n) then Some s else None) as HB.
    { intros k s. destruct (decide (k = n)) as [->|Hk].
      - apply below_Some. by rewrite <-app_assoc.
      - apply below_None. intros [t Ht]. rewrite <-app_assoc in Ht. apply app_inv_head in Ht. by injection Ht. }
    destruct (IH d1) as (d'&E'&H'); [done|intros k Hk; apply Hin; by right| | | |].
    - intros s. rewrite H1. destruct (below (location ++ [n]) (parent ++ s)) as [u|] eqn:E; [|apply Hs].
      apply below_Some in E. rewrite <-app_assoc in E. by apply (disjoint_below parent location _ _ Hdis) in E.
    - rewrite H1. destruct (below (location ++ [n]) location) as [u|] eqn:E; [|done]. apply below_Some in E. exfalso.
      apply (f_equal length) in E. rewrite !app_length in E. cbn in E. lia.
    - intros k s Hk. rewrite H1, HB. rewrite decide_False by (intros ->; done). apply Hn. by right.
    - exists d'. split; [done|]. intros q. rewrite H', H1. destruct (below location q) as [[|k s]|] eqn:E.
      + apply below_Some in E. rewrite app_nil_r in E. subst q. destruct (below (location ++ [n]) location) as [u|] eqn:E; [|done]. apply below_Some in E. exfalso.
        apply (f_equal length) in E. rewrite !app_length in E. cbn in E. lia.
      + apply below_Some in E. subst q. rewrite HB. destruct (decide (k ∈ ns)) as [Hk|Hk].
        * by rewrite decide_True by (by right).
        * destruct (decide (k = n)) as [->|Hkn]; [by rewrite decide_True by left|]. rewrite (decide_False (P := k ∈ n :: ns)); [done|]. rewrite elem_of_cons. tauto.
      + apply below_None in E. destruct (below (location ++ [n]) q) as [u|] eqn:E2; [|done]. apply below_Some in E2. subst q. destruct E. rewrite <-app_assoc. by eexists.
  Qed.
End sequoia.

(** All of it; what was in the folder before was [.keep] only. *)
Theorem copy_sequoia_spec parent root D d : orderly D parent -> disjoint_paths parent root -> (forall s, d !! (parent ++ s) = D !! (parent ++ s)) ->
  d !! sequoia_root root = Some Folder ->
  (forall n s, is_Some (d !! (sequoia_root root ++ n :: s)) -> n = ⌜".keep"⌝ /\ s = []) -> d !! (sequoia_root root ++ [⌜".keep"⌝]) <> Some Folder ->
  D !! (sequoia parent D ++ [⌜".keep"⌝]) = None ->
  exists d', copy_sequoia parent d root = Ok d' /\
    forall q, d' !! q = match below (sequoia_root root) q with
                        | Some (n :: s) => if part D parent (sequoia parent D) (n :: s) then D !! (sequoia parent D ++ n :: s) else None
                        | _ => d !! q
                        end.
Proof.
  intros HD Hdis Hsame Hl Hk Hf Hs. unfold copy_sequoia. cbv zeta.
  assert ((if present d (sequoia_root parent) then sequoia_root parent else parent) = sequoia parent D) as ->.
  { unfold sequoia, present. 
    assert (d !! sequoia_root parent = D !! sequoia_root parent) as -> by apply Hsame. by destruct (D !! sequoia_root parent). }
  assert (disjoint_paths parent (sequoia_root root)) as Hdis'.
  { split; intros [k E].
    - apply (disjoint_below parent root k [⌜"dependencies"⌝; ⌜"sequoia"⌝] Hdis). by rewrite <-E.
    - unfold sequoia_root in E. rewrite <-app_assoc in E. apply (disjoint_below parent root [] ([⌜"dependencies"⌝; ⌜"sequoia"⌝] ++ k) Hdis). by rewrite app_nil_r. }
  assert (sequoia parent D = parent \/ sequoia parent D = sequoia_root parent) as Hsrc.
  { unfold sequoia. destruct (D !! sequoia_root parent); [by right|by left]. }
  pose proof (source_not_nil parent (sequoia_root root) (sequoia parent D) Hdis' Hsrc) as Hsne.
  assert (forall s, d !! (sequoia parent D ++ s) = D !! (sequoia parent D ++ s)) as HsS.
  { intros s. destruct Hsrc as [->| ->]; [apply Hsame|]. unfold sequoia_root. rewrite <-app_assoc. apply Hsame. }
  assert (forall n s, n <> ⌜".keep"⌝ -> d !! (sequoia_root root ++ n :: s) = None) as Hfree.
  { intros n s Hn. destruct (d !! (sequoia_root root ++ n :: s)) as [e|] eqn:E; [|done]. destruct Hn. apply (Hk n s). rewrite E. by eexists. }
  assert (forall s, s <> [] -> d !! (sequoia_root root ++ ⌜".keep"⌝ :: s) = None) as Hkeep.
  { intros s Hs0. destruct (d !! (sequoia_root root ++ ⌜".keep"⌝ :: s)) as [e|] eqn:E; [|done]. destruct Hs0. apply (Hk (⌜".keep"⌝) s). rewrite E. by eexists. }
  assert (⌜".keep"⌝ ∉ children d (sequoia parent D)) as Hkc by (rewrite elem_of_children, HsS, Hs; by intros [? ?]).
  destruct (copy_entries_spec parent (sequoia_root root) (sequoia parent D) D HD Hdis' Hsrc (children d (sequoia parent D)) d) as (d'&E'&H').
  - apply NoDup_children.
  - intros n Hn. apply elem_of_children in Hn. by rewrite HsS in Hn.
  - done.
  - done.
  - intros n s Hn. apply Hfree. by intros ->.
  - rewrite E'. cbn [rbind]. rewrite remove_spec.
    2: { rewrite H', below_app. by rewrite decide_False by done. }
    eexists. split; [reflexivity|]. intros q. destruct (decide (q = sequoia_root root ++ [⌜".keep"⌝])) as [->|Hq].
    + rewrite lookup_delete, below_app. rewrite Hs. by destruct (part _ _ _ _).
    + rewrite lookup_delete_ne by done. rewrite H'. destruct (below (sequoia_root root) q) as [[|n s]|] eqn:E; [done| |done]. apply below_Some in E. subst q.
      destruct (decide (n ∈ children d (sequoia parent D))) as [Hn|Hn]; [done|].
      assert (D !! (sequoia parent D ++ n :: s) = None) as ->.
      { destruct (D !! (sequoia parent D ++ n :: s)) as [e|] eqn:E; [|done]. destruct Hn. apply elem_of_children. rewrite HsS. destruct s as [|k s]; [by exists e|].
        exists Folder. apply (HD _ (k :: s)); [destruct Hsrc as [->| ->]; unfold sequoia_root; rewrite <-?app_assoc; by eexists|done|]. rewrite <-app_assoc. cbn [app]. rewrite E. by eexists. }
      assert (d !! (sequoia_root root ++ n :: s) = None) as ->; [|by destruct (part _ _ _ _)].
      destruct (decide (n = ⌜".keep"⌝)) as [->|Hn2]; [|by apply Hfree]. apply Hkeep. by intros ->.
Qed.
