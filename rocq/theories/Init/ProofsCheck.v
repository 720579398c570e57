(** What is acceptable is what is accepted. *)
From Coq Require Import Ascii String.
From stdpp Require Import list gmap strings.
From Verif.Base Require Import Outcome ListLemmas.
From Verif.Text Require Import Model.
From Verif.Materials Require Import Model Spec Proofs.
From Verif.Creator Require Import Model.
From Verif.Init Require Import Model Spec.
Local Open Scope res_scope.
Local Notation "⌜ s ⌝" := (list_ascii_of_string s%string).
Local Notation length := List.length.

Lemma elem_of_children (d : disk) p n : n ∈ children d p <-> is_Some (d !! (p ++ [n])).
Proof.
  unfold children. rewrite elem_of_list_omap. split.
  - intros ([q e]&Hin&H). cbn [fst] in H. apply elem_of_map_to_list in Hin. destruct (below p q) as [[|k [|]]|] eqn:E; [done| |done|done].
    injection H as ->. apply below_Some in E. subst q. by exists e.
  - intros [e H]. exists (p ++ [n], e). split; [by apply elem_of_map_to_list|]. cbn [fst]. by rewrite (proj2 (below_Some p (p ++ [n]) [n]) eq_refl).
Qed.

Lemma NoDup_children (d : disk) p : NoDup (children d p).
Proof.
  unfold children. pose proof (NoDup_fst_map_to_list d) as H. revert H. generalize (map_to_list d). intros l.
  induction l as [|[q e] l IH]; cbn [fmap list_fmap omap list_omap fst]; [constructor|]. intros H. apply NoDup_cons in H as [Hq H].
  destruct (below p q) as [[|k [|]]|] eqn:E; try by apply IH. constructor; [|by apply IH].
  intros Hin. apply elem_of_list_omap in Hin as ([q' e']&Hin&H'). cbn [fst] in H'. destruct (below p q') as [[|k' [|]]|] eqn:E'; try done.
  injection H' as ->. apply below_Some in E, E'. subst q q'. apply Hq. apply elem_of_list_fmap. by exists (p ++ [k], e').
Qed.

Lemma alnum_spec c : alnum c = if (127 <? code c)%nat then UB else Ok (bool_decide (letter_or_digit c)).
Proof.
  unfold alnum. destruct (127 <? code c)%nat; [done|]. f_equal. unfold upper_code, lower_code, letter_or_digit.
  apply eq_true_iff_eq. rewrite bool_decide_eq_true. lia.
Qed.

Lemma some_other_false name : some_other name = Ok false <-> Forall name_char name.
Proof.
  induction name as [|c name IH]; cbn [some_other]; [by split|]. rewrite Forall_cons, <-IH, alnum_spec. unfold name_char.
  destruct (127 <? code c)%nat eqn:E.
  - cbn [rbind]. split; [done|]. intros [[H|[->| ->]] _]; [unfold letter_or_digit in H; lia|done|done].
  - cbn [rbind]. destruct (bool_decide (letter_or_digit c)) eqn:E1; [apply bool_decide_eq_true in E1|apply bool_decide_eq_false in E1]; cbn [orb]; [tauto|].
    destruct (bool_decide (c = "_"%char)) eqn:E2; [apply bool_decide_eq_true in E2|apply bool_decide_eq_false in E2]; cbn [orb]; [tauto|].
    destruct (bool_decide (c = "-"%char)) eqn:E3; [apply bool_decide_eq_true in E3|apply bool_decide_eq_false in E3]; [tauto|]. split; [done|tauto].
Qed.

Lemma some_other_total name : Forall (fun c => code c <= 127)%nat name -> exists b, some_other name = Ok b.
Proof.
  induction 1 as [|c name H _ IH]; cbn [some_other]; [by exists false|]. rewrite alnum_spec.
  replace (127 <? code c)%nat with false by lia. cbn [rbind]. destruct (_ || _); [done|]. by exists true.
Qed.

Lemma appropriate_true d p : appropriate d p = Ok true <->
  d !! p = None \/ (d !! p = Some Folder /\ forall n, is_Some (d !! (p ++ [n])) -> n ∈ ignored).
Proof.
  unfold appropriate. destruct (d !! p) as [[c|]|]; [split; [done|by intros [?|[? _]]]| |split; [by left|done]].
  split.
  - intros H. right. split; [done|]. intros n Hn. injection H as H. rewrite forallb_forall in H. apply elem_of_children in Hn.
    apply elem_of_list_In in Hn. apply H in Hn. unfold ignored. apply orb_true_iff in Hn as [Hn|Hn]; apply bool_decide_eq_true in Hn; subst n; [left|right; left].
  - intros [?|[_ H]]; [done|]. f_equal. apply forallb_forall. intros n Hn. apply elem_of_list_In, elem_of_children, H in Hn.
    unfold ignored in Hn. apply elem_of_cons in Hn as [->|Hn]; [by rewrite bool_decide_true|]. apply elem_of_list_singleton in Hn as ->.
    by rewrite (bool_decide_true (⌜".keep"⌝ = ⌜".keep"⌝)), orb_true_r by done.
Qed.
Lemma appropriate_total d p : (exists b, appropriate d p = Ok b) \/ appropriate d p = Throw RuntimeError.
Proof. unfold appropriate. destruct (d !! p) as [[c|]|]; [by right|left; by eexists|left; by eexists]. Qed.

Lemma indent_ok_spec ind : indent_ok ind = true <-> Forall (fun c => c = tab \/ c = " "%char) ind.
Proof.
  unfold indent_ok. rewrite forallb_forall, Forall_forall. setoid_rewrite elem_of_list_In.
  split; intros H c Hc; specialize (H c Hc); rewrite orb_true_iff, !bool_decide_eq_true in *; exact H.
Qed.

Lemma located_named p n : n <> [] -> located (p ++ [n]) = p ++ [n].
Proof. intros H. unfold located. rewrite last_snoc. by destruct n. Qed.

Theorem check_accepts d x : check d x = Ok tt <-> acceptable d x.
Proof.
  split.
  - unfold check. destruct (project_root x) as [|r root] eqn:E; [done|]. destruct (decide (r = ⌜"/"⌝)) as [->|Hr].
    2: { rewrite bool_decide_false by done. done. }
    rewrite bool_decide_true by done. cbn [negb]. destruct (appropriate d _) as [[|]| | |] eqn:Ea; try done. cbn [rbind negb].
    cbv zeta. destruct (List.last (_ :: root) []) as [|c name] eqn:En; [done|].
    destruct (some_other (c :: name)) as [[|]| | |] eqn:Es; try done. cbn [rbind]. destruct (indent_ok (code_indent x)) eqn:Ei; [|done]. intros _.
    destruct root as [|n root' _] using rev_ind.
    { cbn in En. injection En as <- <-. by vm_compute in Es. }
    change (⌜"/"⌝ :: root' ++ [n]) with ((⌜"/"⌝ :: root') ++ [n]) in *. rewrite List.last_last in En. subst n.
    rewrite located_named in Ea by done. split.
    + exists root', (c :: name). rewrite E. split; [done|]. split; [done|]. by apply some_other_false.
    + apply appropriate_true. rewrite E. exact Ea.
    + by apply indent_ok_spec.
  - intros [(dir&name&E&Hne&Hc) Hf Hi]. unfold check. rewrite E. rewrite bool_decide_true by done. cbn [negb].
    change (⌜"/"⌝ :: dir ++ [name]) with ((⌜"/"⌝ :: dir) ++ [name]) in *. rewrite located_named by done. rewrite E in Hf. apply appropriate_true in Hf. rewrite Hf.
    cbn [rbind negb]. cbv zeta. rewrite List.last_last. destruct name as [|c name]; [done|]. apply some_other_false in Hc. rewrite Hc. cbn [rbind].
    apply indent_ok_spec in Hi. by rewrite Hi.
Qed.

(** What is rejected *)
Theorem check_rejects d x : Forall (fun c => code c <= 127)%nat (List.last (project_root x) []) ->
  ~ acceptable d x <-> check d x = Throw RuntimeError.
Proof.
  intros Hc. rewrite <-check_accepts. split; [|intros ->; done].
  unfold check. destruct (project_root x) as [|r root] eqn:E; [done|]. destruct (negb _); [done|].
  destruct (appropriate_total d (located (r :: root))) as [[[|] ->]| ->]; [|done|done]. cbn [rbind negb]. cbv zeta.
  destruct (List.last (r :: root) []) as [|c name] eqn:En; [done|].
  destruct (some_other_total _ Hc) as [b Hb]. rewrite Hb. cbn [rbind]. destruct b; [done|]. by destruct (indent_ok _).
Qed.
