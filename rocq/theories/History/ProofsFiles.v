(** Proofs about what is remembered, and about files which depend on others. *)
From Coq Require Import Ascii String NArith Sorted.
From stdpp Require Import list relations sorting.
From Verif.Base Require Import Outcome Compare ListLemmas.
From Verif.Text Require Import Model.
From Verif.Prune Require Import Model Spec Proofs.
From Verif.Depend Require Import Model Spec ProofsTop ProofsLayout.
From Verif.Select Require Import Model Spec Proofs.
From Verif.History Require Import Model Spec.
Local Open Scope res_scope.
Local Notation length := List.length.

(** ** Writing and reading *)

Lemma write_rebased repo l l' : repo <> [] -> Forall2 (fun p q => rebase_from p repo = Ok q /\ good_path repo q) l l' ->
  exists t, write_tests repo l = Ok t /\ forall acc, read_tests (Some t) acc = Ok (acc ++ l').
Proof.
  intros Hr H. assert (write_tests repo l = write_tests repo l') as ->.
  { induction H as [|p q l l' [Hp Hq] _ IH]; [done|]. cbn [write_tests]. rewrite Hp, (rebase_good repo q Hr Hq), IH. done. }
  assert (Forall (good_path repo) l') as Hg. { clear -H. induction H as [|p q l l' [_ ?] _ IH]; by constructor. }
  destruct (write_tests_ok repo l' Hr Hg) as (t & Ht & _). exists t. split; [done|]. intros acc. by eapply write_read.
Qed.

(** Paths which are written as good ones *)
Definition rebased (repo p : list text) : Prop := exists q, rebase_from p repo = Ok q /\ good_path repo q.

Lemma rebased_list repo l : Forall (rebased repo) l -> exists l', Forall2 (fun p q => rebase_from p repo = Ok q /\ good_path repo q) l l'.
Proof. induction 1 as [|p l [q Hq] _ [l' IH]]; [by exists []|]. exists (q :: l'). by constructor. Qed.

Lemma rebased_in repo l l' p q : Forall2 (fun p q => rebase_from p repo = Ok q /\ good_path repo q) l l' -> p ∈ l -> rebase_from p repo = Ok q -> q ∈ l'.
Proof.
  induction 1 as [|p0 q0 l l' [H1 H2] _ IH]; [by intros ?%elem_of_nil|]. intros [-> |Hp]%elem_of_cons Hq; [|right; by apply IH].
  rewrite Hq in H1. injection H1 as ->. left.
Qed.

Lemma rebased_good repo l l' : Forall2 (fun p q => rebase_from p repo = Ok q /\ good_path repo q) l l' -> Forall (good_path repo) l'.
Proof. induction 1 as [|p q l l' [_ ?] _ IH]; by constructor. Qed.

(** The file holds these paths, all good. *)
Definition reads (repo : list text) (file : option text) (l : list (list text)) : Prop :=
  read_tests file [] = Ok l /\ Forall (good_path repo) l.

Lemma remember_ok repo filtered m executed failed s f F P : repo <> [] ->
  reads repo (m_failures m) F -> reads repo (snd <$> m_passes m) P -> Forall (rebased repo) executed -> Forall (rebased repo) failed ->
  exists m' F' P', remember repo filtered m executed failed s f = Ok m' /\ reads repo (m_failures m') F' /\ reads repo (snd <$> m_passes m') P'
    /\ (forall p q, p ∈ failed -> rebase_from p repo = Ok q -> q ∈ F')
    /\ m_stamp m' = (if filtered then m_stamp m else Some s) /\ (forall x, m_passes m' = Some x -> fst x = f).
Proof.
  intros Hr [HF HgF] [HP HgP] He Hf. unfold remember.
  assert (forall l, Forall (good_path repo) l -> Forall (rebased repo) l) as Hgood.
  { intros l H. eapply Forall_impl; [exact H|]. intros p Hp. exists p. split; [by apply rebase_good|done]. }
  destruct filtered.
  - unfold update_filtered. cbn [Prune.Model.passes Prune.Model.failures Prune.Model.stamp]. rewrite HP. cbn [rbind]. rewrite HF. cbn [rbind].
    set (passing := set_difference (set_union (sort_by path_compare executed) P) (sort_by path_compare failed)).
    set (all := set_union (set_difference F passing) (sort_by path_compare failed)).
    assert (forall p, p ∈ sort_by path_compare executed <-> p ∈ executed) as Hee by (intros p; by rewrite (sort_by_perm (cmp := path_compare))).
    assert (forall p, p ∈ sort_by path_compare failed <-> p ∈ failed) as Hfe by (intros p; by rewrite (sort_by_perm (cmp := path_compare))).
    assert (Forall (rebased repo) passing) as Hp.
    { apply Forall_forall. intros p [Hp|Hp]%set_difference_sub%set_union_in.
      - apply Hee in Hp. rewrite Forall_forall in He. by apply He.
      - specialize (Hgood P HgP). rewrite Forall_forall in Hgood. by apply Hgood. }
    assert (Forall (rebased repo) all) as Ha.
    { apply Forall_forall. intros p [Hp'|Hp']%set_union_in.
      - apply set_difference_sub in Hp'. specialize (Hgood F HgF). rewrite Forall_forall in Hgood. by apply Hgood.
      - apply Hfe in Hp'. rewrite Forall_forall in Hf. by apply Hf. }
    destruct (rebased_list repo all Ha) as (F' & HF'). destruct (rebased_list repo passing Hp) as (P' & HP').
    destruct (write_rebased repo all F' Hr HF') as (tf & -> & Htf). destruct (write_rebased repo passing P' Hr HP') as (tp & -> & Htp).
    cbn [rbind]. eexists _, F', P'. split; [reflexivity|]. cbn.
    split; [split; [apply Htf|by eapply rebased_good]|]. split; [split; [apply Htp|by eapply rebased_good]|].
    split; [|split; [done|]].
    + intros p q Hp' Hq. eapply rebased_in; [exact HF'| |exact Hq]. apply set_union_in. right. by apply Hfe.
    + intros x [= <-]. done.
  - unfold update_all.
    assert (Forall (rebased repo) (sort_by path_compare failed)) as Hf' by (by rewrite (sort_by_perm (cmp := path_compare))).
    destruct (rebased_list repo _ Hf') as (F' & HF'). destruct (write_rebased repo _ F' Hr HF') as (tf & -> & Htf).
    cbn [rbind]. eexists _, F', []. split; [reflexivity|]. cbn.
    split; [split; [apply Htf|by eapply rebased_good]|]. split; [split; [done|by constructor]|].
    split; [|split; [done|done]]. intros p q Hp' Hq. eapply rebased_in; [exact HF'| |exact Hq]. by rewrite (sort_by_perm (cmp := path_compare)).
Qed.

(** Source files as the compiler has them *)
Lemma rebase_source repo r f : named repo -> good_path (absolute repo) r -> compiled repo r f -> rebase_from f (absolute repo) = Ok r.
Proof.
  intros Hrepo Hr [|n q (pre & b & q' & -> & -> & Hb)].
  - unfold rebase_from. cbn [absolute app drop_up]. rewrite decide_False by done.
    change (absolute repo) with ([] ++ list_ascii_of_string "/" :: repo). rewrite from_last_part; [|intros H; by destruct (named_elem repo _ Hrepo H) as (_ & _ & ? & _)].
    cbn [app]. change (Ok (strip_common (absolute repo ++ r) (absolute repo)) = Ok r). by rewrite strip_common_prefix.
  - assert (named [b]) as Hb1. { constructor; [|constructor]. unfold named in Hrepo. rewrite Forall_forall in Hrepo. apply Hrepo. set_solver. }
    destruct (named_elem [b] b Hb1) as (Hu & _ & _ & Hne); [by left|].
    unfold rebase_from. destruct (ups n ++ (b :: q') ++ r) as [|x l] eqn:E; [by destruct n|]. rewrite <- E.
    rewrite drop_up_ups by (intros Hx; apply Hu; by injection Hx). cbn [absolute app]. destruct b as [|c b]; [done|].
    change (absolute (pre ++ (c :: b) :: q')) with ((list_ascii_of_string "/" :: pre) ++ (c :: b) :: q').
    rewrite from_last_part by done. f_equal. exact (strip_common_prefix ((c :: b) :: q') r).
Qed.

(** ** Files and nodes *)

Lemma before_by_name f g : before f g <-> by_name f g = Lt.
Proof.
  unfold before, by_name. destruct (text_compare (file_name f) (file_name g)) eqn:E.
  - apply (cmp_eq text_total) in E. split; [intros [?|[_ ?]]; [congruence|done]|by right].
  - split; [done|by left].
  - split; [|done]. intros [?|[H _]]; [congruence|]. rewrite H, (cmp_refl text_total) in E. done.
Qed.

Section nodes.
  Context (w : project) (cutoff : text) (prune : N) (ns : list info).
  Hypothesis Hns : make_nodes w prune = Ok ns.
  Hypothesis Hnd : NoDup (listing w).

  Lemma node_code n : n ∈ ns -> code w (file n).
  Proof.
    intros H. apply (nodes_spec w prune ns n Hns) in H as (H1 & H2 & _). split; [done|]. unfold is_code in H2. by apply orb_true_iff in H2.
  Qed.

  Lemma code_node f : code w f -> exists u n, ns !! u = Some n /\ file n = f /\ time n = written w f.
  Proof.
    intros [H1 H2]. assert (Info f (written w f) (prune <? written w f)%N ∈ ns) as H.
    { apply (nodes_spec w prune ns _ Hns). cbn. split; [done|]. split; [|done]. unfold is_code. by apply orb_true_iff. }
    apply elem_of_list_lookup in H as [u H]. by exists u, (Info f (written w f) (prune <? written w f)%N).
  Qed.

  Lemma node_time n : n ∈ ns -> time n = written w (file n).
  Proof. intros H. apply (nodes_spec w prune ns n Hns) in H as (_ & _ & ->). done. Qed.

  Lemma node_same u v n m : ns !! u = Some n -> ns !! v = Some m -> file n = file m -> u = v.
  Proof.
    intros Hu Hv E. pose proof (nodes_NoDup w prune ns Hns Hnd) as H. eapply (NoDup_lookup _ u v (file n) H); rewrite list_lookup_fmap.
    - by rewrite Hu. - rewrite Hv. cbn. by rewrite E.
  Qed.

  Lemma names_stands u n inc g : ns !! u = Some n -> stands_for w cutoff (file n) inc g -> exists v m, ns !! v = Some m /\ file m = g /\ names_file w cutoff ns u inc v.
  Proof.
    intros Hn ((incs & Hi & Hin) & _ & Hg & Hc & Hfirst). destruct (code_node g Hg) as (v & m & Hm & <- & _). exists v, m.
    split; [done|]. split; [done|]. exists n, incs, m. split; [done|]. split; [done|]. split; [done|]. split; [done|]. split; [done|].
    intros v' m' Hlt Hm'. apply Hfirst; [apply node_code; by eapply elem_of_list_lookup_2|]. apply before_by_name.
    pose proof (nodes_sorted w prune ns Hns Hnd) as Hs. eapply (sorted_lookup _ _ v' v _ _ Hs); [..|exact Hlt]; rewrite list_lookup_fmap; [by rewrite Hm'|by rewrite Hm].
  Qed.

  Lemma stands_names u v inc n m : ns !! u = Some n -> ns !! v = Some m -> names_file w cutoff ns u inc v -> stands_for w cutoff (file n) inc (file m).
  Proof.
    intros Hn Hm (n0 & incs & m0 & Hn0 & Hi & Hin & Hm0 & Hc & Hfirst). assert (n0 = n) as -> by congruence. assert (m0 = m) as -> by congruence.
    split; [by exists incs|]. split; [apply node_code; by eapply elem_of_list_lookup_2|]. split; [apply node_code; by eapply elem_of_list_lookup_2|].
    split; [done|]. intros g' Hg' Hb. destruct (code_node g' Hg') as (v' & m' & Hm' & <- & _). apply (Hfirst v' m'); [|done].
    apply before_by_name in Hb. destruct (decide (v' < v)) as [|Hge]; [done|]. exfalso.
    pose proof (nodes_sorted w prune ns Hns Hnd) as Hs.
    destruct (decide (v' = v)) as [-> |Hne].
    - assert (m' = m) as -> by congruence. by apply (cmp_irrefl info_compare_total) in Hb.
    - apply (cmp_asym info_compare_total) in Hb. apply Hb. eapply (sorted_lookup _ _ v v' _ _ Hs); [..|lia]; rewrite list_lookup_fmap; [by rewrite Hm|by rewrite Hm'].
  Qed.

  Lemma needs_depends u n g : ns !! u = Some n -> needs w cutoff (file n) g -> exists v m, ns !! v = Some m /\ file m = g /\ depends w cutoff ns u v.
  Proof.
    intros Hn [(inc & H)|(inc & H & Hc & Hs)].
    - destruct (names_stands u n inc g Hn H) as (v & m & Hm & Hf & Hv). exists v, m. split; [done|]. split; [done|]. left. by exists inc.
    - destruct (code_node g) as (v & m & Hm & <- & _); [apply H|]. destruct (names_stands v m inc (file n) Hm H) as (u' & n' & Hn' & E & Hv).
      assert (u' = u) as -> by (by eapply node_same). exists v, m. split; [done|]. split; [done|]. right. exists m, inc. done.
  Qed.

  Lemma needs_depends_rtc u n g : ns !! u = Some n -> rtc (needs w cutoff) (file n) g -> exists v m, ns !! v = Some m /\ file m = g /\ rtc (depends w cutoff ns) u v.
  Proof.
    intros Hn H. remember (file n) as f eqn:E. revert u n Hn E. induction H as [f|f h g Hfh _ IH]; intros u n Hn ->.
    - exists u, n. split; [done|]. split; [done|]. apply rtc_refl.
    - destruct (needs_depends u n h Hn Hfh) as (v & m & Hm & <- & Hd). destruct (IH v m Hm eq_refl) as (x & k & Hk & E & Hx).
      exists x, k. split; [done|]. split; [done|]. by eapply rtc_l.
  Qed.
End nodes.

Lemma needs_code w cutoff f g : needs w cutoff f g -> code w f /\ code w g.
Proof. intros [(inc & _ & H1 & H2 & _)|(inc & (_ & H1 & H2 & _) & _)]; done. Qed.

Lemma needs_code_rtc w cutoff f g : rtc (needs w cutoff) f g -> f ∈ listing w -> g ∈ listing w.
Proof. intros H Hf. apply rtc_inv_r in H as [<- |(x & _ & H)]; [done|]. by apply needs_code in H as [_ [H _]]. Qed.

(** ** Changes *)

Lemma unchanged_refl cutoff w f r : f ∈ listing w -> unchanged cutoff w w f r.
Proof. intros Hf. split; [|done]. intros g Hg. split; [done|]. split; [by eapply needs_code_rtc|done]. Qed.

Lemma unchanged_trans cutoff w1 w2 w3 f r : unchanged cutoff w1 w2 f r -> unchanged cutoff w2 w3 f r -> unchanged cutoff w1 w3 f r.
Proof.
  intros [H1 H2] [H3 H4]. split; [|auto]. intros g Hg. destruct (H3 g Hg) as (Hg2 & _ & Ht & Hc).
  destruct (H1 g Hg2) as (Hg1 & Hl & Ht' & Hc'). split; [done|]. split; [done|]. split; congruence.
Qed.

Section edits.
  Context (cutoff : text) (t : N) (w w' : project).
  Hypothesis He : edited t w w'.

  (** The file has not been changed. *)
  Definition old (f : list text) : Prop := f ∈ listing w /\ written w' f = written w f /\ contents w' f = contents w f.

  Lemma includes_old f : old f -> includes_of w' cutoff f = includes_of w cutoff f.
  Proof. intros (_ & _ & E). unfold includes_of. by rewrite E. Qed.

  Lemma candidate_old f inc g : g ∈ listing w -> candidate w' f inc g <-> candidate w f inc g.
  Proof.
    intros Hg. unfold candidate. destruct He as [(-> & -> & ->) _ _ Hc _]. pose proof (Hc (removelast f ++ inc) g Hg).
    destruct (decide (head inc = Some root_dir)); tauto.
  Qed.

  Lemma stands_old f inc g : old f -> old g -> stands_for w' cutoff f inc g -> stands_for w cutoff f inc g.
  Proof.
    intros Hf Hg ((incs & Hi & Hin) & [_ Hcf] & [_ Hcg] & Hc & Hfirst). split; [exists incs; by rewrite <- includes_old|].
    split; [split; [apply Hf|done]|]. split; [split; [apply Hg|done]|]. split; [apply candidate_old; [apply Hg|done]|].
    intros g' [Hg' Hc'] Hb Hcand. apply (Hfirst g'); [split; [by apply (edited_kept _ _ _ He)|done]|done|]. by apply candidate_old.
  Qed.

  Lemma needs_old f g : old f -> old g -> needs w' cutoff f g -> needs w cutoff f g.
  Proof.
    intros Hf Hg [(inc & H)|(inc & H & H')]; [left|right]; exists inc; [by apply stands_old|]. split; [by apply stands_old|done].
  Qed.

  (** Nothing on which the file depends has a later time. *)
  Lemma unchanged_edited f r : f ∈ listing w' -> (forall g, rtc (needs w' cutoff) f g -> (written w' g <= t)%N) ->
    Forall (fun x => (x <= t)%N) (inside w' r) -> unchanged cutoff w w' f r.
  Proof.
    intros Hf Hall Hin.
    assert (forall g, rtc (needs w' cutoff) f g -> old g) as Hold.
    { intros g Hg. pose proof (Hall g Hg). destruct (edited_files _ _ _ He g (needs_code_rtc _ _ _ _ Hg Hf)) as [|H']; [lia|done]. }
    split.
    - intros g Hg. split; [|by apply Hold]. induction Hg as [g|g h k Hgh Hhk IH]; [apply rtc_refl|].
      eapply rtc_l; [apply needs_old; [| |exact Hgh]|].
      + apply Hold, rtc_refl. + apply Hold. by apply rtc_once.
      + apply IH.
        * by apply needs_code in Hgh as [_ [? _]].
        * intros x Hx. apply Hall. by eapply rtc_l.
        * intros x Hx. apply Hold. by eapply rtc_l.
    - intros x Hx. rewrite Forall_forall in Hin. pose proof (Hin x Hx). destruct (edited_materials _ _ _ He r x Hx) as [|]; [lia|done].
  Qed.
End edits.
