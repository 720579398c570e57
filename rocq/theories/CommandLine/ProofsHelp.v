From Coq Require Import Ascii.
From stdpp Require Import list list_numbers.
From Verif.Base Require Import Outcome ListLemmas.
From Verif.Text Require Import Model Spec ProofsIndent.
From Verif.CommandLine Require Import Model Spec.
Local Open Scope res_scope.

Section help.
  Context {E : Type}.
  Implicit Types o : opt E.
  Implicit Types os : list (opt E).
  Implicit Types h ind : text.

  Lemma opt_rect' (P : opt E -> Prop) :
    (forall n a p e l cs, Forall P cs -> P (Opt n a p e l cs)) -> forall o, P o.
  Proof.
    intros H. fix IH 1. intros [n a p e l cs]. apply H. induction cs as [|c cs IHc]; constructor; [apply IH|exact IHc].
  Qed.

  Fixpoint help_trees os h ind : res (text * text) :=
    match os with
    | [] => Ok (h, ind)
    | o :: os => let? p := help_tree o h ind in help_trees os (fst p) (snd p)
    end.

  Lemma help_tree_eq o h ind : help_tree o h ind =
    (let? p := help_early o h ind in
     let? p := help_trees (o_children o) (fst p) (snd p) in
     Ok (fst p, trim (snd p) 2)).
  Proof.
    destruct o as [n a p e l cs]. cbn [help_tree o_children].
    destruct (help_early (Opt n a p e l cs) h ind) as [[h1 ind1]| | |]; cbn [rbind fst snd]; [|done..].
    assert (Hgo : forall h ind, (fix go (os : list (opt E)) (h ind : text) : res (text * text) :=
                 match os with
                 | [] => Ok (h, ind)
                 | o :: os => let? p := help_tree o h ind in go os (fst p) (snd p)
                 end) cs h ind = help_trees cs h ind); [|by rewrite Hgo].
    clear. induction cs as [|c cs IH]; intros h ind; [done|]. cbn [help_trees]. destruct (help_tree c h ind) as [[? ?]| | |]; cbn; [apply IH|done..].
  Qed.

  Lemma trim_two ind : trim (ind ++ [space; space]) 2 = ind.
  Proof.
    unfold trim. rewrite app_length. cbn [length]. replace (length ind + 2 - 2 `min` (length ind + 2)) with (length ind) by lia. apply take_app.
  Qed.

  Lemma help_early_ok o h ind : exists h', help_early o h ind = Ok (h', ind ++ [space; space]) /\ h' <> [].
  Proof.
    unfold help_early. rewrite indent_spec by lia. cbn [rbind]. eexists. split; [done|]. by destruct (pop_comma _).
  Qed.

  Lemma help_tree_ok o : forall h ind, exists h', help_tree o h ind = Ok (h', ind) /\ h' <> [].
  Proof.
    induction o as [n a p e l cs IH] using opt_rect'. intros h ind. rewrite help_tree_eq.
    destruct (help_early_ok (Opt n a p e l cs) h ind) as (h1 & -> & Hne). cbn [rbind fst snd o_children].
    assert (Hts : forall h ind, h <> [] -> exists h', help_trees cs h ind = Ok (h', ind) /\ h' <> []).
    { clear h ind h1 Hne. induction IH as [|c cs Hc _ IHc]; intros h ind Hne; [by exists h|]. cbn [help_trees].
      destruct (Hc h ind) as (h1 & -> & Hne1). cbn. by apply IHc. }
    destruct (Hts h1 (ind ++ [space; space]) Hne) as (h2 & -> & Hne2). cbn [rbind fst snd]. rewrite trim_two. by exists h2.
  Qed.

  Lemma help_loop_ok os : forall h ind, exists h', help_loop os h ind = Ok h' /\ (h <> [] \/ os <> [] -> h' <> []).
  Proof.
    induction os as [|o os IH]; intros h ind; [exists h; cbn; split; [done|by intros [?|?]]|]. cbn [help_loop].
    destruct (help_tree_ok o h ind) as (h1 & -> & Hne). cbn. destruct (IH h1 ind) as (h2 & -> & Hne2). exists h2. split; [done|].
    intros _. apply Hne2. by left.
  Qed.

  Lemma generate_help_ok os : os <> [] -> exists h, generate_help os = Ok h /\ h <> [].
  Proof. intros H. destruct (help_loop_ok os [] []) as (h & Hh & Hne). exists h. split; [done|]. apply Hne. by right. Qed.

  (** *** The text *)

  Lemma lines_single (n : text) : nl ∉ n -> lines n = [n].
  Proof.
    induction n as [|c n IH]; intros H; [done|]. cbn. rewrite not_elem_of_cons in H. destruct H as [Hc H]. rewrite decide_False by congruence.
    by rewrite IH.
  Qed.

  Lemma help_params_pop (ps : list text) : ps <> [] ->
    concat (map (fun p => [space] ++ p ++ [comma]) ps) = help_params ps ++ [comma].
  Proof.
    destruct ps as [|p ps]; [done|]. intros _. cbn [map concat help_params]. rewrite <- !app_assoc. f_equal. f_equal.
    induction ps as [|q ps IH]; [done|]. cbn [map concat]. rewrite <- !app_assoc. cbn [app]. do 3 f_equal. exact IH.
  Qed.

  Lemma pop_comma_comma h : pop_comma (h ++ [comma]) = h.
  Proof. unfold pop_comma. rewrite last_snoc, bool_decide_true by done. rewrite app_length. cbn. rewrite Nat.add_sub. apply take_app. Qed.

  Lemma pop_comma_other h : last h <> Some comma -> pop_comma h = h.
  Proof.
    unfold pop_comma. destruct (last h) as [c|]; [|done]. intros H. rewrite bool_decide_false; [done|]. congruence.
  Qed.

  Definition head_line o : text :=
    o_name o ++ (match o_aliases o with
           | [] => []
           | _ => [space; "|"%char; space] ++ concat (map (fun a => a ++ [space]) (o_aliases o)) ++ ["|"%char]
           end) ++ help_params (o_params o).

  Lemma last_app_some {A} (l l' : list A) : l' <> [] -> last (l ++ l') = last l'.
  Proof. intros H. destruct l' as [|x l']; [done|]. rewrite last_app. destruct (last (x :: l')) eqn:E'; [done|]. by apply last_None in E'. Qed.

  Lemma help_early_line o h ind : tidy o -> help_early o h ind = Ok (h ++ ind ++ head_line o ++ [nl], ind ++ [space; space]).
  Proof.
    intros [n a p e l cs Hne Hnl Hc _]. unfold help_early, head_line. rewrite indent_spec by lia. cbn [rbind o_name o_aliases o_params].
    unfold indented. rewrite lines_single by done. cbn [map join]. assert (Hil : indent_line ind n = ind ++ n) by by destruct n. rewrite Hil. do 2 f_equal.
    destruct p as [|p0 ps].
    - cbn [map concat help_params]. rewrite !app_nil_r. rewrite pop_comma_other.
      + destruct a; rewrite ?app_nil_r, <- ?app_assoc; reflexivity.
      + destruct a as [|a0 a].
        * rewrite app_assoc, last_app_some by done. done.
        * rewrite !app_assoc, last_snoc. done.
    - rewrite (help_params_pop (p0 :: ps)) by done. rewrite app_assoc, pop_comma_comma.
      destruct a; rewrite <- ?app_assoc; [reflexivity|]. rewrite <- ?app_assoc. reflexivity.
  Qed.

  Lemma repeat_two d : repeat space (2 * S d) = repeat space (2 * d) ++ [space; space].
  Proof. replace (2 * S d) with (2 * d + 2) by lia. by rewrite repeat_app. Qed.

  Definition as_lines (ls : list text) : text := concat (map (fun l => l ++ [nl]) ls).

  Lemma as_lines_app l1 l2 : as_lines (l1 ++ l2) = as_lines l1 ++ as_lines l2.
  Proof. unfold as_lines. by rewrite map_app, concat_app. Qed.

  Lemma help_tree_text o : forall d h, tidy o ->
    help_tree o h (repeat space (2 * d)) = Ok (h ++ as_lines (help_lines d o), repeat space (2 * d)).
  Proof.
    induction o as [n a p e l cs IH] using opt_rect'. intros d h Ht. rewrite help_tree_eq, help_early_line by done. cbn [rbind fst snd o_children].
    assert (Hcs : Forall tidy cs) by by inversion Ht.
    assert (Hts : forall d h, help_trees cs h (repeat space (2 * d)) = Ok (h ++ as_lines (concat (map (help_lines d) cs)), repeat space (2 * d))).
    { clear Ht d h. induction IH as [|c cs Hc _ IHc]; intros d h; [cbn; by rewrite app_nil_r|]. inversion Hcs; subst. cbn [help_trees].
      rewrite Hc by done. cbn [rbind fst snd]. rewrite IHc by done. cbn [map concat]. by rewrite as_lines_app, app_assoc. }
    rewrite <- repeat_two, Hts. cbn [rbind fst snd]. rewrite repeat_two, trim_two. cbn [help_lines o_name o_aliases o_params o_children].
    unfold as_lines at 2. cbn [map concat]. unfold head_line. cbn [o_name o_aliases o_params]. do 2 f_equal. rewrite <- !app_assoc. done.
  Qed.

  Lemma generate_help_text os : Forall tidy os -> generate_help os = Ok (help_of os).
  Proof.
    intros H. unfold generate_help, help_of. fold (as_lines (concat (map (help_lines 0) os))).
    assert (Hl : forall h, help_loop os h (repeat space (2 * 0)) = Ok (h ++ as_lines (concat (map (help_lines 0) os)))); [|apply Hl].
    induction H as [|o os Ho _ IH]; intros h; [cbn; by rewrite app_nil_r|]. cbn [help_loop]. rewrite help_tree_text by done. cbn [rbind fst snd].
    rewrite IH. cbn [map concat]. by rewrite as_lines_app, app_assoc.
  Qed.
End help.
