(** Proofs about the files made for tests of semantics, and about new headers and sources. *)
From Coq Require Import Ascii String.
From stdpp Require Import list.
From Verif.Base Require Import Outcome ListLemmas.
From Verif.Text Require Import Model Spec Proofs ProofsIndent.
From Verif.Edit Require Model Proofs.
From Verif.Creator Require Import Model Templates Spec Symbolic ProofsFiles ProofsTexts.
Local Open Scope res_scope.
Local Notation "⌜ s ⌝" := (list_ascii_of_string s%string).

Lemma data_text_nil ds : data_text ds = [] <-> ds = [].
Proof.
  split; [|by intros ->]. destruct ds as [|d ds]; [done|]. unfold data_text. intros H. apply (f_equal length) in H.
  rewrite app_length in H. cbn [length] in H. lia.
Qed.
Lemma prediction_word n : word (prediction n 0 []).
Proof.
  unfold prediction. rewrite (bool_decide_eq_true_2 ([] = [])) by done. cbn [negb]. rewrite andb_false_r, app_nil_r.
  apply Forall_forall. intros c Hc. apply elem_of_app in Hc as [Hc|Hc].
  - assert (Forall (fun c => ident_char c = true) ⌜"prediction"⌝) as H by (repeat constructor). rewrite Forall_forall in H. by apply H.
  - destruct (1 <? n); [|by apply not_elem_of_nil in Hc]. assert (Forall (fun c => ident_char c = true) ⌜"_0"⌝) as H by (repeat constructor).
    rewrite Forall_forall in H. by apply H.
Qed.

Lemma ssemantics_ok sc u k sq it s o ds types : answers u sq it -> test_type (u_set u) = kind_name k -> (k = Regular \/ k = MoveOnly) ->
  equivalents types = Ok (u_args u) -> u_data u = data_text ds -> u_prediction u = prediction (length types) 0 [] ->
  ssemantics k (negb (bool_decide (types = []))) (negb (bool_decide (u_data u = []))) sq it s = Some o ->
  semantics_text sc (u_set u) ds (u_name u) types (denote (rho u) s) = Ok (denote (rho u) o).
Proof.
  intros Ha Ht Hk He Hd Hp. pose proof (a_fine _ _ _ Ha) as Hf. unfold ssemantics, semantics_text.
  replace (bool_decide (test_type (u_set u) = ⌜"regular"⌝)) with (is_regular k) by (rewrite Ht; destruct Hk as [-> | ->]; done).
  destruct (schoose FF BB (is_regular k) s) as [s1|] eqn:E1; [|done].
  rewrite (schoose_ok FF BB (rho u) (HFF u Hf) (HBB u Hf) _ _ _ E1).
  match goal with |- match ?x with _ => _ end = _ -> _ => destruct x as [s2|] eqn:E2; [|done] end.
  assert (equivalence_part types (denote (rho u) s1) = Ok (denote (rho u) s2)) as ->.
  { destruct types as [|t types].
    - rewrite (bool_decide_eq_true_2 ([] = [])) in E2 by done. cbn [negb] in E2. exact (sdrop_tester_ok FF BB (rho u) (HFF u Hf) (HBB u Hf) _ _ E2).
    - rewrite bool_decide_eq_false_2 in E2 by done. cbn [negb] in E2. unfold equivalence_part. rewrite He. cbn [rbind]. rewrite <- Hp.
      apply (substs_step u) in E2; [|done]. cbn [map fst snd denote meant] in E2. rewrite !app_nil_r in E2. exact E2. }
  cbn [rbind].
  match goal with |- match ?x with _ => _ end = _ -> _ => destruct x as [s3|] eqn:E3; [|done] end.
  match goal with |- _ -> rbind ?x _ = _ => assert (x = Ok (denote (rho u) s3)) as -> end.
  { destruct ds as [|d ds].
    - rewrite bool_decide_eq_true_2 in E3 by by rewrite Hd. cbn [negb] in E3.
      apply (ssubst_ok FF BB (rho u) (HFF u Hf) (HBB u Hf)) in E3. by rewrite denote_ks in E3.
    - rewrite bool_decide_eq_false_2 in E3 by (rewrite Hd; intros H; by apply data_text_nil in H). cbn [negb] in E3.
      apply (ssubst_ok FF BB (rho u) (HFF u Hf) (HBB u Hf)) in E3. rewrite (a_it _ _ _ Ha), <- Hd.
      rewrite !denote_app in E3. cbn [denote meant] in E3. rewrite !app_nil_r in E3. exact E3. }
  cbn [rbind]. destruct (scommon sq it s3) as [s4|] eqn:E4; [|done]. rewrite (scommon_ok u sq it s3 s4 Ha E4). cbn [rbind].
  rewrite Ht, camel_kind. cbn [rbind]. intros Ho. apply (substs_step u) in Ho; [|done]. cbn [map fst snd] in Ho. rewrite !denote_ks in Ho.
  cbn [denote meant] in Ho. rewrite !app_nil_r in Ho. exact Ho.
Qed.
Lemma dtable_semantics u k sq it : answers u sq it ->
  dtable (rho u) (stable_semantics k (negb (bool_decide (u_data u = []))) sq it) =
  semantics_table k (u_set u) (u_data u) (u_name u) (u_args u) (u_prediction u).
Proof.
  intros Ha. unfold stable_semantics, semantics_table. rewrite <- (dtable_common u sq it Ha). unfold dtable. rewrite !map_app.
  f_equal; [cbn [map fst snd denote meant]; by rewrite !app_nil_r|]. f_equal; [|f_equal].
  - destruct (decide (u_data u = [])) as [E|E].
    + rewrite bool_decide_eq_true_2 by done. done.
    + rewrite bool_decide_eq_false_2 by done. cbn [negb map fst snd]. rewrite !denote_app, <- (a_it _ _ _ Ha). cbn [denote meant].
      by rewrite !app_nil_r.
  - cbn [map fst snd]. rewrite !denote_ks. cbn [denote meant]. rewrite !app_nil_r. done.
Qed.

Theorem semantics_file sc year h o k ds qn types args l :
  ordinary o -> year_text year -> holder h -> test_type o = kind_name k -> (k = Regular \/ k = MoveOnly) -> l ∈ semantics_templates ->
  lacks (⌜"?;"⌝ ++ [tab]) (data_text ds) -> lacks ⌜"?"⌝ qn -> equivalents types = Ok args -> lacks (⌜"?;"⌝ ++ [tab]) args ->
  exists l1 l2, chosen k (body l) l1 /\ tested (negb (bool_decide (types = []))) l1 l2 /\
    file_text year h (semantics_text sc o ds qn types) l =
    Ok (with_copyright year h (instantiate (semantics_table k o (data_text ds) qn args (prediction (length types) 0 [])) l2)).
Proof.
  intros Ho Hy Hh Ht Hk Hl Hd Hq He Hargs.
  destruct (settled o year h (data_text ds) qn args (prediction (length types) 0 []) [] Ho Hy Hh Hd Hq Hargs (prediction_word _) (lacks_nil _)) as (sq & it & Ha).
  set (u := settle o year h (data_text ds) qn args (prediction (length types) 0 []) []) in *.
  assert (k ∈ [Regular; MoveOnly]) as Hin by (rewrite !elem_of_cons; destruct Hk as [-> | ->]; auto).
  pose proof (for_all_ok _ _ _ (semantics_checked (negb (bool_decide (types = []))) (negb (bool_decide (u_data u = [])))) l k sq it Hl Hin) as H.
  unfold semantics_check in H. apply andb_prop in H as [[H1%chosen_ok H2%tested_ok]%andb_prop H].
  exists (kept1 k l), (kept2 k (negb (bool_decide (types = []))) l). split; [done|]. split; [done|].
  destruct (agrees_ok _ _ _ _ u (a_fine u _ _ Ha) H) as (s & Hs & E).
  unfold file_text. rewrite top_copyright.
  - cbn [rbind]. change (with_copyright year h (body l)) with (with_copyright (u_year u) (u_holder u) (body l)). rewrite <- denote_file.
    change o with (u_set u) at 1. change qn with (u_name u) at 1.
    rewrite (ssemantics_ok sc u k sq it _ s ds types Ha Ht Hk He eq_refl eq_refl Hs), E. by rewrite (dtable_semantics u k sq it Ha).
  - clear -Hl. unfold semantics_templates, templates in *. rewrite !elem_of_cons in *. rewrite elem_of_nil in Hl. tauto.
Qed.

(** ** Headers and sources *)

Lemma join_cons_ne sep w ws : ws <> [] -> join sep (w :: ws) = w ++ sep ++ join sep ws.
Proof. by destruct ws. Qed.
Lemma dedent_nl r : dedent (nl :: r) = nl :: dedent (one_tab_less r).
Proof. destruct r as [|t r]; [done|]. cbn [dedent]. rewrite decide_True by done. unfold one_tab_less. by destruct (decide (t = tab)). Qed.
Lemma first_less r : unnested [] (one_tab_less r) = join [nl] (map one_tab_less (lines r)).
Proof.
  unfold unnested. destruct r as [|t r]; [done|]. unfold one_tab_less at 1. destruct (decide (t = tab)) as [-> |Ht].
  - cbn [lines]. rewrite decide_False by done. destruct (lines r) as [|w ws] eqn:E; [by destruct (lines_ne r)|].
    cbn [map]. unfold one_tab_less at 2. rewrite decide_True by done. done.
  - destruct (lines (t :: r)) as [|w ws] eqn:E; [by destruct (lines_ne (t :: r))|]. cbn [map]. f_equal. f_equal.
    cbn [lines] in E. destruct (decide (t = nl)); [by injection E as <- _|]. destruct (lines r); injection E as <- _; cbn; by rewrite decide_False.
Qed.
Lemma dedent_lines l : dedent l = unnested [] l.
Proof.
  induction l as [l IH] using (induction_ltof1 _ length). unfold ltof in IH.
  destruct (decide (nl ∈ l)) as [Hin|Hn].
  - apply elem_of_list_split_l in Hin as (w & r & -> & Hw). rewrite dedent_app, dedent_nl by done. rewrite IH, first_less.
    + unfold unnested. rewrite lines_app by done. rewrite join_cons_ne; [done|]. intros H%map_eq_nil. by destruct (lines_ne r).
    + rewrite app_length. cbn [length]. assert (length (one_tab_less r) <= length r); [|lia]. destruct r as [|t r]; [done|]. unfold one_tab_less.
      destruct (decide (t = tab)); cbn; lia.
  - unfold unnested. rewrite (lines_flat l Hn). cbn. rewrite <- (app_nil_r l) at 1. by rewrite dedent_app, app_nil_r.
Qed.

Definition snamespace (ne : bool) (s : list piece) : option (list piece) :=
  if ne then ssubsts FF BB s [(⌜"namespace"⌝, ks ⌜"namespace "⌝ ++ [V 14]); (⌜"?{"⌝, ks ⌜"{"⌝); (⌜"?}"⌝, ks ⌜"}"⌝)]
  else match ssubsts FF BB s [(⌜"namespace"⌝ ++ [nl], []); (⌜"?{"⌝ ++ [nl], []); (⌜"?}"⌝ ++ [nl], [])] with
       | Some s' => sdedent FF s'
       | None => None
       end.
Definition stable_namespace (ne : bool) : list (text * list piece) :=
  if ne then [(⌜"namespace"⌝, ks ⌜"namespace "⌝ ++ [V 14]); (⌜"?{"⌝, ks ⌜"{"⌝); (⌜"?}"⌝, ks ⌜"}"⌝)]
  else [(⌜"namespace"⌝ ++ [nl], []); (⌜"?{"⌝ ++ [nl], []); (⌜"?}"⌝ ++ [nl], [])].
Definition sbody (ne : bool) (l : text) : option (list piece) :=
  match sinst FF BB (stable_namespace ne) (ks l) with
  | Some t => if ne then Some t else sdedent FF t
  | None => None
  end.

Lemma snamespace_ok u s o : fine u -> snamespace (negb (bool_decide (u_ns u = []))) s = Some o ->
  process_namespace (denote (rho u) s) (u_ns u) = Ok (denote (rho u) o).
Proof.
  intros Hf. unfold snamespace, process_namespace. destruct (u_ns u) as [|c ns] eqn:E.
  - rewrite (bool_decide_eq_true_2 ([] = [])) by done. cbn [negb]. destruct (ssubsts _ _ s _) as [s'|] eqn:Es; [|done]. intros Ho.
    apply (substs_step u) in Es; [|done]. cbn [map fst snd denote] in Es. rewrite Es. cbn [rbind]. f_equal.
    exact (sdedent_ok FF BB (rho u) (HFF u Hf) (HBB u Hf) (length s') s' o (Nat.le_refl _) Ho).
  - rewrite bool_decide_eq_false_2 by done. cbn [negb]. intros Ho. apply (substs_step u) in Ho; [|done]. cbn [map fst snd] in Ho.
    rewrite !denote_app, !denote_ks in Ho. cbn [denote meant] in Ho. rewrite !app_nil_r in Ho. unfold rho at 2 in Ho. cbn [nth] in Ho. rewrite E in Ho. exact Ho.
Qed.
Lemma sbody_ok u l o : fine u -> sbody (negb (bool_decide (u_ns u = []))) l = Some o ->
  unnested (u_ns u) (instantiate (namespace_table (u_ns u)) l) = denote (rho u) o.
Proof.
  intros Hf. unfold sbody. destruct (sinst FF BB _ (ks l)) as [t|] eqn:E; [|done].
  apply (sinst_ok FF BB (rho u) (HFF u Hf) (HBB u Hf)) in E. rewrite denote_ks in E.
  assert (dtable (rho u) (stable_namespace (negb (bool_decide (u_ns u = [])))) = namespace_table (u_ns u)) as Et.
  { unfold stable_namespace, namespace_table. destruct (u_ns u) as [|c ns] eqn:En.
    - rewrite bool_decide_eq_true_2 by done. done.
    - rewrite bool_decide_eq_false_2 by done. unfold dtable. cbn [negb map fst snd]. rewrite !denote_app, !denote_ks. cbn [denote meant].
      rewrite !app_nil_r. unfold rho. cbn [nth]. by rewrite En. }
  rewrite Et in E. rewrite E. destruct (u_ns u) as [|c ns] eqn:En.
  - rewrite bool_decide_eq_true_2 by done. cbn [negb]. intros Ho. rewrite <- dedent_lines.
    exact (sdedent_ok FF BB (rho u) (HFF u Hf) (HBB u Hf) (length t) t o (Nat.le_refl _) Ho).
  - rewrite bool_decide_eq_false_2 by done. cbn [negb]. intros [= ->]. unfold unnested. done.
Qed.

(** A header or source file *)
Definition concurs (ne : bool) (pipe : list piece -> option (list piece)) (table : list (text * list piece)) (rest : text) : bool :=
  match snamespace ne (sline ++ ks rest), sbody ne rest with
  | Some s, Some t =>
      match pipe s, sinst FF BB table t with
      | Some s', Some t' => bool_decide (s' = sline ++ t')
      | _, _ => false
      end
  | _, _ => false
  end.
Lemma concurs_ok u pipe table rest : fine u -> concurs (negb (bool_decide (u_ns u = []))) pipe table rest = true ->
  exists s s', process_namespace (with_copyright (u_year u) (u_holder u) rest) (u_ns u) = Ok (denote (rho u) s) /\ pipe s = Some s' /\
    denote (rho u) s' = with_copyright (u_year u) (u_holder u)
      (instantiate (dtable (rho u) table) (unnested (u_ns u) (instantiate (namespace_table (u_ns u)) rest))).
Proof.
  intros Hf. unfold concurs. destruct (snamespace _ _) as [s|] eqn:E1; [|done]. destruct (sbody _ rest) as [t|] eqn:E2; [|done].
  destruct (pipe s) as [s'|] eqn:E3; [|done]. destruct (sinst FF BB table t) as [t'|] eqn:E4; [|done]. intros H%bool_decide_eq_true.
  exists s, s'. split; [|split; [done|]].
  - rewrite <- denote_file. by apply snamespace_ok.
  - rewrite (sbody_ok u rest t Hf E2), H, denote_app, denote_sline.
    apply (sinst_ok FF BB (rho u) (HFF u Hf) (HBB u Hf)) in E4. rewrite <- E4. symmetry. apply with_copyright_app.
Qed.

Definition sclass (tm it : bool) (s : list piece) : option (list piece) :=
  match ssubst FF BB s ⌜"?type"⌝ [V 1] with
  | None => None
  | Some s2 =>
      match (if tm then ssubst FF BB s2 ⌜"template<?>"⌝ (ks ⌜"template"⌝ ++ [V 10])
             else ssubsts FF BB s2 [([tab] ++ ⌜"template<?>"⌝ ++ [nl], []); (⌜"template<?>"⌝ ++ [nl], [])]) with
      | None => None
      | Some s3 => suntab FF s3 (sind it)
      end
  end.
Definition stable_class (tm it : bool) : list (text * list piece) :=
  (⌜"?type"⌝, [V 1]) ::
  (if tm then [(⌜"template<?>"⌝, ks ⌜"template"⌝ ++ [V 10])]
   else [([tab] ++ ⌜"template<?>"⌝ ++ [nl], []); (⌜"template<?>"⌝ ++ [nl], [])]) ++ [([tab], sind it)].
Definition ssource (it : bool) (s : list piece) : option (list piece) :=
  match ssubst FF BB s ⌜"?.hpp"⌝ [V 4] with Some s2 => suntab FF s2 (sind it) | None => None end.
Definition stable_source (it : bool) : list (text * list piece) := [(⌜"?.hpp"⌝, [V 4]); ([tab], sind it)].

Definition four (check : bool -> bool -> bool -> bool) : bool := forallb (fun a => forallb (fun b => forallb (check a b) flags) flags) flags.
Lemma four_ok check : four check = true -> forall a b c, check a b c = true.
Proof.
  unfold four. intros H a b c. rewrite forallb_forall in H. specialize (H a (flag_in a)). rewrite forallb_forall in H.
  specialize (H b (flag_in b)). rewrite forallb_forall in H. exact (H c (flag_in c)).
Qed.
Definition class_template (regular : bool) : text := if regular then my_regular_class_hpp else my_move_only_class_hpp.
Lemma class_checked regular : four (fun ne tm it => concurs ne (sclass tm it) (stable_class tm it) (body (class_template regular))) = true.
Proof. destruct regular; vm_compute; reflexivity. Qed.
Lemma source_checked : four (fun ne it _ => concurs ne (ssource it) (stable_source it) (body my_cpp_cpp)) = true.
Proof. vm_compute; reflexivity. Qed.
Lemma functions_checked : four (fun ne _ _ => concurs ne Some [] (body my_free_functions_hpp)) = true.
Proof. vm_compute; reflexivity. Qed.

Lemma sclass_ok u sq it ds s o : answers u sq it -> u_data u = data_text ds -> sclass (negb (bool_decide (u_data u = []))) it s = Some o ->
  (let? l2 := subst (denote (rho u) s) ⌜"?type"⌝ (forename (u_set u)) in
   let? l3 := match ds with
              | [] => substs l2 [([tab] ++ ⌜"template<?>"⌝ ++ [nl], []); (⌜"template<?>"⌝ ++ [nl], [])]
              | _ => subst l2 ⌜"template<?>"⌝ (⌜"template"⌝ ++ data_text ds)
              end in
   untab l3 (code_indent (u_set u))) = Ok (denote (rho u) o).
Proof.
  intros Ha Hd. pose proof (a_fine _ _ _ Ha) as Hf. unfold sclass. destruct (ssubst _ _ s _ _) as [s2|] eqn:E2; [|done].
  match goal with |- match ?x with _ => _ end = _ -> _ => destruct x as [s3|] eqn:E3; [|done] end. intros Ho.
  apply (ssubst_ok FF BB (rho u) (HFF u Hf) (HBB u Hf)) in E2. cbn [denote meant] in E2. rewrite app_nil_r in E2.
  change (rho u 1) with (forename (u_set u)) in E2. rewrite E2. cbn [rbind].
  match goal with |- rbind ?x _ = _ => assert (x = Ok (denote (rho u) s3)) as -> end.
  - destruct ds as [|d ds].
    + rewrite bool_decide_eq_true_2 in E3 by by rewrite Hd. cbn [negb] in E3. apply (substs_step u) in E3; [|done].
      cbn [map fst snd denote] in E3. exact E3.
    + rewrite bool_decide_eq_false_2 in E3 by (rewrite Hd; intros H; by apply data_text_nil in H). cbn [negb] in E3.
      apply (ssubst_ok FF BB (rho u) (HFF u Hf) (HBB u Hf)) in E3. rewrite denote_app, denote_ks in E3. cbn [denote meant] in E3.
      rewrite app_nil_r in E3. rewrite <- Hd. exact E3.
  - cbn [rbind]. rewrite (a_it _ _ _ Ha). by apply untab_step.
Qed.
Lemma dtable_class u sq it : answers u sq it -> dtable (rho u) (stable_class (negb (bool_decide (u_data u = []))) it) = class_table (u_set u) (u_data u).
Proof.
  intros Ha. unfold stable_class, class_table, dtable. cbn [map fst snd]. rewrite map_app. cbn [denote meant]. rewrite app_nil_r. f_equal. f_equal.
  - destruct (decide (u_data u = [])) as [E|E].
    + rewrite bool_decide_eq_true_2 by done. done.
    + rewrite bool_decide_eq_false_2 by done. cbn [negb map fst snd]. rewrite denote_app, denote_ks. cbn [denote meant]. by rewrite app_nil_r.
  - cbn [map fst snd]. by rewrite <- (a_it _ _ _ Ha).
Qed.

Theorem class_file year h o ds ns regular :
  ordinary o -> year_text year -> holder h -> lacks (⌜"?;"⌝ ++ [tab]) (data_text ds) -> lacks (⌜"?<"⌝ ++ [tab; nl]) ns ->
  class_header_text year h ns o ds (class_template regular) =
  Ok (with_copyright year h (instantiate (class_table o (data_text ds)) (unnested ns (instantiate (namespace_table ns) (body (class_template regular)))))).
Proof.
  intros Ho Hy Hh Hd Hn.
  destruct (settled o year h (data_text ds) [] [] [] ns Ho Hy Hh Hd (lacks_nil _) (lacks_nil _) word_nil Hn) as (sq & it & Ha).
  set (u := settle o year h (data_text ds) [] [] [] ns) in *.
  pose proof (four_ok _ (class_checked regular) (negb (bool_decide (u_ns u = []))) (negb (bool_decide (u_data u = []))) it) as H. cbn beta in H.
  destruct (concurs_ok u _ _ _ (a_fine u _ _ Ha) H) as (s & s' & H1 & H2 & H3).
  unfold class_header_text. rewrite top_copyright.
  - cbn [rbind]. change (process_namespace _ ns) with (process_namespace (with_copyright (u_year u) (u_holder u) (body (class_template regular))) (u_ns u)).
    rewrite H1. cbn [rbind]. pose proof (sclass_ok u sq it ds s s' Ha eq_refl H2) as E. rewrite H3, (dtable_class u sq it Ha) in E. exact E.
  - destruct regular; unfold class_template, templates; rewrite !elem_of_cons; tauto.
Qed.

Theorem source_file year h ns o :
  ordinary o -> year_text year -> holder h -> lacks (⌜"?<"⌝ ++ [tab; nl]) ns ->
  source_text year h ns (header_path o) (code_indent o) my_cpp_cpp =
  Ok (with_copyright year h (instantiate (source_table (header_path o) (code_indent o)) (unnested ns (instantiate (namespace_table ns) (body my_cpp_cpp))))).
Proof.
  intros Ho Hy Hh Hn.
  destruct (settled o year h [] [] [] [] ns Ho Hy Hh (lacks_nil _) (lacks_nil _) (lacks_nil _) word_nil Hn) as (sq & it & Ha).
  set (u := settle o year h [] [] [] [] ns) in *.
  pose proof (four_ok _ source_checked (negb (bool_decide (u_ns u = []))) it true) as H. cbn beta in H.
  pose proof (a_fine u _ _ Ha) as Hf.
  destruct (concurs_ok u _ _ _ Hf H) as (s & s' & H1 & H2 & H3).
  unfold source_text. rewrite top_copyright.
  - cbn [rbind]. change (process_namespace _ ns) with (process_namespace (with_copyright (u_year u) (u_holder u) (body my_cpp_cpp)) (u_ns u)).
    rewrite H1. cbn [rbind]. unfold ssource in H2. destruct (ssubst _ _ s _ _) as [s2|] eqn:E2; [|done].
    apply (ssubst_ok FF BB (rho u) (HFF u Hf) (HBB u Hf)) in E2. cbn [denote meant] in E2. rewrite app_nil_r in E2.
    change (rho u 4) with (header_path o) in E2. rewrite E2. cbn [rbind]. apply (untab_step u) in H2; [|done].
    rewrite <- (a_it _ _ _ Ha) in H2. change (code_indent (u_set u)) with (code_indent o) in H2. rewrite H2, H3. f_equal. f_equal. f_equal.
    unfold dtable, stable_source, source_table. cbn [map fst snd]. rewrite <- (a_it _ _ _ Ha). cbn [denote meant]. by rewrite app_nil_r.
  - unfold templates; rewrite !elem_of_cons; tauto.
Qed.

Lemma word_o : ordinary (Setting [] [] [] [] [] [] []).
Proof. repeat split; try apply Forall_nil; try done. right. by apply Forall_nil. Qed.
Lemma fill_nil l : fill 0 [] l = l.
Proof. induction l as [|c l IH]; [done|]. cbn [fill find]. by rewrite IH. Qed.
Theorem functions_file year h ns :
  year_text year -> holder h -> lacks (⌜"?<"⌝ ++ [tab; nl]) ns ->
  functions_header_text year h ns my_free_functions_hpp =
  Ok (with_copyright year h (unnested ns (instantiate (namespace_table ns) (body my_free_functions_hpp)))).
Proof.
  intros Hy Hh Hn.
  destruct (settled _ year h [] [] [] [] ns word_o Hy Hh (lacks_nil _) (lacks_nil _) (lacks_nil _) word_nil Hn) as (sq & it & Ha).
  set (u := settle _ year h [] [] [] [] ns) in *.
  pose proof (four_ok _ functions_checked (negb (bool_decide (u_ns u = []))) it true) as H. cbn beta in H.
  destruct (concurs_ok u _ _ _ (a_fine u _ _ Ha) H) as (s & s' & H1 & H2 & H3). injection H2 as <-.
  unfold functions_header_text. rewrite top_copyright.
  - cbn [rbind]. change (process_namespace _ ns) with (process_namespace (with_copyright (u_year u) (u_holder u) (body my_free_functions_hpp)) (u_ns u)).
    rewrite H1, H3. unfold dtable. cbn [map]. unfold instantiate at 1. by rewrite fill_nil.
  - unfold templates; rewrite !elem_of_cons; tauto.
Qed.
