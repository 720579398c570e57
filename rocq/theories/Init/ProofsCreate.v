(** The new project is what is expected. *)
From Coq Require Import Ascii String.
From stdpp Require Import list gmap strings.
From Verif.Base Require Import Outcome ListLemmas.
From Verif.Text Require Import Model.
From Verif.Materials Require Import Model Spec Proofs ProofsSuites.
From Verif.Creator Require Import Model.
From Verif.Init Require Import Model Spec ProofsCheck ProofsCopy.
Local Open Scope res_scope.
Local Notation "⌜ s ⌝" := (list_ascii_of_string s%string).
Local Notation length := List.length.

Lemma below_both p q r : below (p ++ q) (p ++ r) = below q r.
Proof. induction p as [|a p IH]; cbn [app below]; [done|]. by rewrite decide_True. Qed.

Lemma modify_spec d p f c c' : d !! p = Some (File c) -> f c = Ok c' -> modify d p f = Ok (<[p := File c']> d).
Proof. intros H E. unfold modify. by rewrite H, E. Qed.

Lemma app_not_nil (p q : path) : q <> [] -> p ++ q <> [].
Proof. intros H E. by apply app_eq_nil in E as [_ ?]. Qed.

(** A folder is renamed, if nothing is there. *)
Lemma rename_spec d dir a b : d !! dir = Some Folder -> d !! (dir ++ [a]) = Some Folder -> (a <> b -> forall s, d !! (dir ++ b :: s) = None) ->
  exists d', rename d (dir ++ [a]) (dir ++ [b]) = Ok d' /\
    forall q, d' !! q = match below (dir ++ [b]) q, below (dir ++ [a]) q with
                        | Some s, _ => d !! (dir ++ a :: s)
                        | None, Some _ => None
                        | None, None => d !! q
                        end.
Proof.
  intros Hd Ha Hb. unfold rename. rewrite Ha. destruct (decide (dir ++ [a] = dir ++ [b])) as [E|Hne].
  - exists d. split; [done|]. intros q. apply app_inv_head in E. injection E as <-. destruct (below (dir ++ [a]) q) as [s|] eqn:E; [|done].
    apply below_Some in E. subst q. by rewrite <-app_assoc.
  - assert (a <> b) as Hab by (intros ->; done). specialize (Hb Hab). rewrite removelast_last, Hd, Hb. eexists. split; [reflexivity|].
    intros q. rewrite union_lookup, copies_lookup. destruct (below (dir ++ [b]) q) as [s|] eqn:E.
    + apply below_Some in E. subst q. rewrite <-!app_assoc. cbn [app]. rewrite lookup_remove, Hb; [by destruct (d !! (dir ++ a :: s))|].
      intros [k Hk]. rewrite <-app_assoc in Hk. apply app_inv_head in Hk. by injection Hk as ? ?.
    + destruct (below (dir ++ [a]) q) as [s|] eqn:E2.
      * apply below_Some in E2. subst q. by rewrite lookup_removed.
      * apply lookup_remove. by apply below_None.
Qed.

(** A folder is copied, if there is no conflict. *)
Lemma copy_skipping_spec d from to : d !! from = Some Folder -> ~ from `prefix_of` to ->
  (forall r e e', d !! (from ++ r) = Some e -> d !! (to ++ r) = Some e' -> is_folder e = is_folder e') ->
  exists d', copy_skipping d from to = Ok d' /\
    forall q, d' !! q = match d !! q with Some e => Some e | None => match below to q with Some r => d !! (from ++ r) | None => None end end.
Proof.
  intros Hf Hi Hc. unfold copy_skipping. rewrite into_itself_false by done. rewrite Hf.
  assert (existsb (fun x : path * entry => match d !! x.1 with Some e => xorb (is_folder e) (is_folder x.2) | None => false end) (copies d from to) = false) as ->.
  { apply not_true_iff_false. intros H. apply existsb_exists in H as (y&Hy&H). apply elem_of_list_In, copies_elem in Hy as (r&E&Hr).
    rewrite E in H. destruct (d !! (to ++ r)) as [e'|] eqn:E'; [|done]. rewrite (Hc r _ _ Hr E'), xorb_nilpotent in H. done. }
  eexists. split; [reflexivity|]. intros q. by rewrite union_lookup, copies_lookup.
Qed.

Section creation.
  Context (parent : path) (D : disk) (x : data) (year : text) (new : texts).
  Notation R := (project_root x).
  Notation T := (template parent D).
  Hypothesis Hacc : acceptable D x.
  Hypothesis HD : orderly D parent.
  Hypothesis HDR : orderly D (project_root x).
  Hypothesis Hdis : disjoint_paths parent R.
  Hypothesis Hway : way_free D R.
  Hypothesis Hcomp : complete parent D x.
  Hypothesis Hnew : changed parent D x year new.

  Lemma root_not_nil : R <> [].
  Proof using Hacc. destruct (acceptable_root _ _ Hacc) as (dir&name&E&_). by rewrite E. Qed.
  Lemma template_below : exists u, T = parent ++ u /\ u <> [].
  Proof using. unfold template, sequoia_root. destruct (present _ _); rewrite <-!app_assoc; eexists; (split; [reflexivity|done]). Qed.
  Lemma template_not_nil : T <> [].
  Proof using. unfold template. by destruct (if present _ _ then _ else _). Qed.

  Lemma template_prefix r : parent `prefix_of` T ++ r.
  Proof using. destruct template_below as (u&->&_). rewrite <-app_assoc. by eexists. Qed.

  Lemma fresh n s : n ∉ ignored -> D !! (R ++ n :: s) = None.
  Proof using HDR Hacc.
    intros Hn. destruct (D !! (R ++ n :: s)) as [e|] eqn:E; [|done]. exfalso. pose proof root_not_nil as Hr.
    assert (D !! R = Some Folder) as HR by (apply (HDR _ (n :: s)); [done|done|rewrite E; by eexists]).
    destruct (acceptable_free _ _ Hacc) as [H|[_ H]]; [congruence|]. apply Hn, H. destruct s as [|k s]; [by exists e|]. exists Folder.
    apply (HDR _ (k :: s)); [by eexists|done|]. rewrite <-app_assoc. cbn [app]. rewrite E. by eexists.
  Qed.
  Lemma template_fresh n s : n ∈ ignored -> D !! (T ++ n :: s) = None.
  Proof using HD Hcomp.
    intros Hn. destruct (D !! (T ++ n :: s)) as [e|] eqn:E; [|done]. exfalso. pose proof (complete_top _ _ _ Hcomp n Hn) as HT.
    destruct s as [|k s]; [congruence|]. assert (D !! (T ++ [n]) = Some Folder); [|congruence].
    apply (HD _ (k :: s)); [apply template_prefix|done|]. rewrite <-app_assoc. cbn [app]. rewrite E. by eexists.
  Qed.

  Lemma made : exists d1, create_directories D R = Ok d1 /\ d1 !! R = Some Folder /\ (forall r, r <> [] -> d1 !! (R ++ r) = D !! (R ++ r)) /\
    (forall s, d1 !! (parent ++ s) = D !! (parent ++ s)) /\ only_below R D d1.
  Proof using HD HDR Hacc Hdis Hway.
    destruct (create_directories_spec D R) as (d1&E1&HR&Hn&_&Ho); [|done|].
    { destruct (acceptable_free _ _ Hacc) as [H|[H _]]; [by left|by right]. }
    exists d1. split; [done|]. split; [apply HR, root_not_nil|]. split; [|split].
    - intros r Hr. apply Hn. intros [k E]. rewrite <-app_assoc in E. rewrite <-(app_nil_r R) in E at 1. apply app_inv_head in E. by destruct r.
    - intros s. apply Hn. intros [k E]. rewrite <-app_assoc in E. apply (disjoint_below parent R (s ++ k) [] Hdis). by rewrite app_nil_r.
    - intros q _. apply Ho.
  Qed.

  Lemma filled d1 : d1 !! R = Some Folder -> (forall r, r <> [] -> d1 !! (R ++ r) = D !! (R ++ r)) ->
    (forall s, d1 !! (parent ++ s) = D !! (parent ++ s)) ->
    exists d2, copy_skipping d1 T R = Ok d2 /\ (forall r, d2 !! (R ++ r) = match D !! (R ++ r) with Some e => Some e | None => D !! (T ++ r) end) /\
      (forall q, ~ R `prefix_of` q -> d2 !! q = d1 !! q).
  Proof using HD HDR Hacc Hdis Hcomp.
    intros HR Hr Hs. destruct template_below as (u&ET&_).
    assert (forall s, d1 !! (T ++ s) = D !! (T ++ s)) as HsT by (intros s; rewrite ET, <-app_assoc; apply Hs).
    destruct (copy_skipping_spec d1 T R) as (d2&E2&H2).
    - rewrite <-(app_nil_r T), HsT, app_nil_r. apply (complete_tmpl _ _ _ Hcomp).
    - intros [k E]. rewrite ET, <-app_assoc in E. apply (disjoint_below parent R (u ++ k) [] Hdis). by rewrite app_nil_r.
    - intros r e e' He He'. rewrite HsT in He. destruct r as [|n r].
      + rewrite app_nil_r in *. rewrite HR in He'. rewrite (complete_tmpl _ _ _ Hcomp) in He. by injection He as <-; injection He' as <-.
      + exfalso. rewrite Hr in He' by done. destruct (decide (n ∈ ignored)) as [Hi|Hi]; [by rewrite template_fresh in He|by rewrite fresh in He'].
    - exists d2. split; [done|]. split.
      + intros r. rewrite H2, below_app, HsT. destruct r as [|n r]; [|by rewrite Hr].
        rewrite !app_nil_r, HR. destruct (acceptable_free _ _ Hacc) as [->|[-> _]]; [|done]. by rewrite (complete_tmpl _ _ _ Hcomp).
      + intros q Hq. rewrite H2. apply below_None in Hq. rewrite Hq. by destruct (d1 !! q).
  Qed.

  Lemma source_not_ignored : ⌜"Source"⌝ ∉ ignored.
  Proof using. apply (bool_decide_unpack _). by vm_compute. Qed.

  Lemma renamed d2 : (forall r, d2 !! (R ++ r) = match D !! (R ++ r) with Some e => Some e | None => D !! (T ++ r) end) ->
    exists d3, rename d2 (R ++ [⌜"Source"⌝; ⌜"projectTemplate"⌝]) (R ++ source_folder R) = Ok d3 /\
      (forall r, d3 !! (R ++ r) = match below (source_folder R) r, below [⌜"Source"⌝; ⌜"projectTemplate"⌝] r with
                                  | Some s, _ => D !! (T ++ [⌜"Source"⌝; ⌜"projectTemplate"⌝] ++ s)
                                  | None, Some _ => None
                                  | None, None => match D !! (R ++ r) with Some e => Some e | None => D !! (T ++ r) end
                                  end) /\
      (forall q, ~ R `prefix_of` q -> d3 !! q = d2 !! q).
  Proof using HD HDR Hacc Hcomp.
    intros H2. assert (forall s, d2 !! (R ++ ⌜"Source"⌝ :: s) = D !! (T ++ ⌜"Source"⌝ :: s)) as HS.
    { intros s. by rewrite H2, (fresh _ s source_not_ignored). }
    destruct (rename_spec d2 (R ++ [⌜"Source"⌝]) (⌜"projectTemplate"⌝) (uncapitalize (List.last R []))) as (d3&E3&H3).
    - rewrite (HS []). apply (complete_source _ _ _ Hcomp).
    - rewrite <-app_assoc. cbn [app]. rewrite HS. apply (complete_project _ _ _ Hcomp).
    - intros Hne s. rewrite <-app_assoc. cbn [app]. rewrite HS. assert (D !! (T ++ source_folder R) = None) as HN by (apply (complete_other _ _ _ Hcomp); congruence).
      destruct s as [|k s]; [exact HN|]. destruct (D !! (T ++ ⌜"Source"⌝ :: uncapitalize (List.last R []) :: k :: s)) as [e|] eqn:E; [|done]. exfalso.
      assert (D !! (T ++ source_folder R) = Some Folder); [|congruence]. apply (HD _ (k :: s)); [apply template_prefix|done|].
      rewrite <-app_assoc. cbn [app source_folder]. rewrite E. by eexists.
    - exists d3. rewrite <-!app_assoc in E3, H3. cbn [app] in E3, H3. split; [exact E3|]. split.
      + intros r. rewrite H3. fold (source_folder R). rewrite !below_both. destruct (below (source_folder R) r) as [s|].
        * rewrite <-app_assoc. cbn [app]. apply HS.
        * destruct (below _ r); [done|]. apply H2.
      + intros q Hq. rewrite H3. fold (source_folder R). destruct (below (R ++ source_folder R) q) as [s|] eqn:E.
        { apply below_Some in E. subst q. destruct Hq. rewrite <-app_assoc. by eexists. }
        destruct (below (R ++ [⌜"Source"⌝; ⌜"projectTemplate"⌝]) q) as [s|] eqn:E4; [|reflexivity]. apply below_Some in E4. subst q. destruct Hq. rewrite <-app_assoc. by eexists.
  Qed.

  Lemma root_eq r s : R ++ r = R ++ s <-> r = s.
  Proof using. split; [apply app_inv_head|by intros ->]. Qed.

  Theorem created : exists d', create parent year T D x = Ok d' /\ (forall r, d' !! (R ++ r) = expected parent D x new r) /\ only_below R D d'.
  Proof using HD HDR Hacc Hcomp Hdis Hnew Hway.
    destruct made as (d1&E1&HR1&Hr1&Hs1&Ho1). destruct (filled d1 HR1 Hr1 Hs1) as (d2&E2&H2&Hn2). destruct (renamed d2 H2) as (d3&E3&H3&Hn3).
    destruct Hnew as [(c4&Hc4&Ht4) (c5&Hc5&Ht5) (c6&Hc6&Ht6) H7].
    assert (d3 !! (R ++ main_cpp) = Some (File c4)) as L4.
    { rewrite H3. change (below (source_folder R) main_cpp) with (@None path). change (below [⌜"Source"⌝; ⌜"projectTemplate"⌝] main_cpp) with (@None path). cbv iota.
      unfold main_cpp at 1. rewrite fresh; [exact Hc4|]. apply (bool_decide_unpack _). by vm_compute. }
    set (d4 := <[R ++ main_cpp := File (new_main new)]> d3).
    assert (d4 !! (R ++ main_cmake) = Some (File c5)) as L5.
    { unfold d4. rewrite lookup_insert_ne by (rewrite root_eq; done). rewrite H3. change (below (source_folder R) main_cmake) with (@None path).
      change (below [⌜"Source"⌝; ⌜"projectTemplate"⌝] main_cmake) with (@None path). cbv iota.
      unfold main_cmake at 1. rewrite fresh; [exact Hc5|]. apply (bool_decide_unpack _). by vm_compute. }
    set (d5 := <[R ++ main_cmake := File (new_cmake new)]> d4).
    assert (d5 !! (R ++ source_folder R ++ [⌜"CMakeLists.txt"⌝]) = Some (File c6)) as L6.
    { unfold d5, d4. rewrite !lookup_insert_ne by (rewrite root_eq; done). rewrite H3, below_app. exact Hc6. }
    set (d6 := <[R ++ source_folder R ++ [⌜"CMakeLists.txt"⌝] := File (new_library new)]> d5).
    assert (exists d7, match use_git x, output_file x with
               | true, _ :: _ => modify d6 (R ++ [⌜".gitignore"⌝]) (fun l => Ok (l ++ [nl; nl] ++ List.last (output_file x) []))
               | _, _ => Ok d6 end = Ok d7 /\ forall q, d7 !! q = if decide (q = R ++ [⌜".gitignore"⌝] /\ is_Some (new_ignore new)) then File <$> new_ignore new else d6 !! q) as (d7&E7&H7').
    { assert (new_ignore new = None -> forall q, d6 !! q = if decide (q = R ++ [⌜".gitignore"⌝] /\ is_Some (new_ignore new)) then File <$> new_ignore new else d6 !! q) as HN.
      { intros -> q. rewrite decide_False; [done|]. by intros [_ [? ?]]. }
      destruct (use_git x); [|exists d6; split; [done|by apply HN]]. destruct (output_file x) as [|f fs]; [exists d6; split; [done|by apply HN]|].
      destruct H7 as (c7&Hc7&E7). rewrite E7. erewrite modify_spec; [|  |reflexivity].
      2: { unfold d6, d5, d4. rewrite !lookup_insert_ne by (rewrite root_eq; done). rewrite H3. change (below (source_folder R) [⌜".gitignore"⌝]) with (@None path).
           change (below [⌜"Source"⌝; ⌜"projectTemplate"⌝] [⌜".gitignore"⌝]) with (@None path). cbv iota. rewrite fresh; [exact Hc7|].
           apply (bool_decide_unpack _). by vm_compute. }
      eexists. split; [reflexivity|]. intros q. destruct (decide (q = R ++ [⌜".gitignore"⌝])) as [->|Hq].
      - rewrite lookup_insert. rewrite decide_True; [done|]. split; [done|by eexists].
      - rewrite lookup_insert_ne by done. rewrite decide_False; [done|]. by intros [? _]. }
    assert (forall r, (forall s, r = [⌜"dependencies"⌝; ⌜"sequoia"⌝] ++ s -> d7 !! (R ++ r) = D !! (T ++ r))) as Hdep.
    { intros r s ->. rewrite H7'. rewrite decide_False by (rewrite root_eq; by intros [? _]). unfold d6, d5, d4.
      rewrite !lookup_insert_ne by (rewrite root_eq; done). rewrite H3.
      change (below (source_folder R) ([⌜"dependencies"⌝; ⌜"sequoia"⌝] ++ s)) with (@None path).
      change (below [⌜"Source"⌝; ⌜"projectTemplate"⌝] ([⌜"dependencies"⌝; ⌜"sequoia"⌝] ++ s)) with (@None path). cbv iota. cbn [app]. rewrite fresh; [done|].
      apply (bool_decide_unpack _). by vm_compute. }
    assert (forall q, ~ R `prefix_of` q -> d7 !! q = d1 !! q) as Hout.
    { intros q Hq. assert (forall r, R ++ r <> q) as Hne by (intros r <-; apply Hq; by eexists).
      rewrite H7'. rewrite decide_False by (intros [-> _]; by apply (Hne [⌜".gitignore"⌝])). unfold d6, d5, d4.
      rewrite !lookup_insert_ne by apply Hne. by rewrite Hn3, Hn2. }
    assert (forall s, d7 !! (parent ++ s) = D !! (parent ++ s)) as Hs7.
    { intros s. rewrite Hout; [apply Hs1|]. intros [k E]. by apply (disjoint_below parent R s k Hdis). }
    destruct (copy_sequoia_spec parent R D d7 HD Hdis Hs7) as (d8&E8&H8).
    - unfold sequoia_root. rewrite (Hdep _ []); [apply (complete_dependency _ _ _ Hcomp)|by rewrite app_nil_r].
    - intros n s. unfold sequoia_root. rewrite <-app_assoc. rewrite (Hdep _ (n :: s)) by done. intros Hs. cbn [app] in Hs.
      assert (n = ⌜".keep"⌝) as ->.
      { apply (complete_keep _ _ _ Hcomp). destruct s as [|k s]; [done|]. exists Folder. apply (HD _ (k :: s)); [apply template_prefix|done|].
        rewrite <-app_assoc. exact Hs. }
      split; [done|]. destruct s as [|k s]; [done|]. exfalso. apply (complete_file _ _ _ Hcomp).
      apply (HD _ (k :: s)); [apply template_prefix|done|]. rewrite <-app_assoc. exact Hs.
    - unfold sequoia_root. rewrite <-app_assoc. rewrite (Hdep _ [⌜".keep"⌝]) by done. apply (complete_file _ _ _ Hcomp).
    - apply (complete_sequoia _ _ _ Hcomp).
    - exists d8. split; [|split].
      + unfold create. cbv zeta. rewrite E1. cbn [rbind]. rewrite E2. cbn [rbind]. rewrite E3. cbn [rbind].
        rewrite (modify_spec _ _ _ _ _ L4 Ht4). cbn [rbind]. fold d4. rewrite (modify_spec d4 (R ++ main_cmake) (fun l => set_proj_name l (List.last R [])) _ _ L5 Ht5). cbn [rbind]. fold d5.
        rewrite (modify_spec d5 _ (fun l => set_proj_name l (List.last R [])) _ _ L6 Ht6). cbn [rbind]. fold d6. rewrite E7. cbn [rbind]. exact E8.
      + intros r. rewrite H8. unfold sequoia_root. rewrite below_both. unfold expected.
        assert (d7 !! (R ++ r) = if decide (r = main_cpp) then Some (File (new_main new))
          else if decide (r = main_cmake) then Some (File (new_cmake new))
          else if decide (r = source_folder R ++ [⌜"CMakeLists.txt"⌝]) then Some (File (new_library new))
          else if decide (r = [⌜".gitignore"⌝] /\ is_Some (new_ignore new)) then File <$> new_ignore new
          else match below (source_folder R) r, below [⌜"Source"⌝; ⌜"projectTemplate"⌝] r with
             | Some s, _ => D !! (T ++ [⌜"Source"⌝; ⌜"projectTemplate"⌝] ++ s)
             | None, Some _ => None
             | None, None => match D !! (R ++ r) with Some e => Some e | None => D !! (T ++ r) end
             end) as HE.
        { rewrite H7'. unfold d6, d5, d4. destruct (decide (r = main_cpp)) as [->|N1].
          { rewrite decide_False by (rewrite root_eq; by intros [? _]). rewrite !lookup_insert_ne by (rewrite root_eq; done). apply lookup_insert. }
          destruct (decide (r = main_cmake)) as [->|N2].
          { rewrite decide_False by (rewrite root_eq; by intros [? _]). rewrite lookup_insert_ne by (rewrite root_eq; done). apply lookup_insert. }
          destruct (decide (r = source_folder R ++ [⌜"CMakeLists.txt"⌝])) as [->|N3].
          { rewrite decide_False by (rewrite root_eq; by intros [? _]). apply lookup_insert. }
          destruct (decide (r = [⌜".gitignore"⌝] /\ is_Some (new_ignore new))) as [[-> Hi]|N4].
          { by rewrite decide_True. }
          rewrite decide_False by (rewrite root_eq; done). rewrite !lookup_insert_ne by (rewrite root_eq; congruence). apply H3. }
        destruct (below [⌜"dependencies"⌝; ⌜"sequoia"⌝] r) as [[|k s]|]; [exact HE|reflexivity|exact HE].
      + intros q Hq. rewrite H8. assert (below (sequoia_root R) q = None) as ->.
        { apply below_None. intros [k ->]. apply Hq. unfold sequoia_root. rewrite <-app_assoc. by eexists. }
        rewrite Hout by done. by apply Ho1.
  Qed.
End creation.
