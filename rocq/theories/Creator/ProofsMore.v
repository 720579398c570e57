(** Nothing is left to fill in, and the classes which are registered are defined by the files made. *)
From Coq Require Import Ascii String.
From stdpp Require Import list.
From Verif.Base Require Import Outcome ListLemmas.
From Verif.Text Require Import Model Spec Proofs.
From Verif.Creator Require Import Model Templates Spec Symbolic ProofsFiles ProofsTexts ProofsClass.
Local Open Scope res_scope.
Local Notation "⌜ s ⌝" := (list_ascii_of_string s%string).
Local Notation length := List.length.

Fixpoint ssub (p s : list piece) : bool :=
  bool_decide (take (length p) s = p) || match s with [] => false | _ :: s' => ssub p s' end.
Lemma ssub_ok ρ p s : ssub p s = true -> occurs (denote ρ p) (denote ρ s).
Proof.
  induction s as [|x s IH].
  - cbn. rewrite orb_false_r. intros H%bool_decide_eq_true. rewrite take_nil in H. subst p. by exists 0, [], [].
  - change (ssub p (x :: s)) with (bool_decide (take (length p) (x :: s) = p) || ssub p s). intros [H|H]%orb_prop.
    + apply bool_decide_eq_true in H. exists 0, [], (denote ρ (drop (length p) (x :: s))). split; [|done]. cbn [app].
      rewrite <- denote_app. f_equal.
      rewrite <- (take_drop (length p) (x :: s)) at 1. by rewrite H.
    + destruct (IH H) as (i & a & b & E & _). exists (length (meant ρ x ++ a)), (meant ρ x ++ a), b. split; [|done]. cbn [denote]. by rewrite E, <- app_assoc.
Qed.

(** The classes, symbolically *)
Definition scls (middle : text) : list piece := [V 1] ++ ks middle ++ [V 2].
Definition sdeclares (middle : text) : list (list piece) := [ks ⌜"class "⌝ ++ scls middle ++ ks ⌜" final : public "⌝].
Definition simplements (middle : text) : list (list piece) :=
  [ks ⌜" "⌝ ++ scls middle ++ ks (⌜"::source_file() const"⌝ ++ [nl]); ks ⌜"void "⌝ ++ scls middle ++ ks (⌜"::run_tests()"⌝ ++ [nl])].

Definition complete (pats : list (list piece)) (s : option (list piece)) : bool :=
  match s with Some s => slacks FF "?"%char s && forallb (fun p => ssub p s) pats | None => false end.
Lemma complete_ok u pats s : fine u -> complete pats s = true ->
  exists s', s = Some s' /\ "?"%char ∉ denote (rho u) s' /\ Forall (fun p => occurs (denote (rho u) p) (denote (rho u) s')) pats.
Proof.
  intros Hf. unfold complete. destruct s as [s|]; [|done]. intros [H1 H2]%andb_prop. exists s. split; [done|].
  split; [exact (slacks_ok FF BB (rho u) (HFF u Hf) (HBB u Hf) _ _ H1)|].
  rewrite forallb_forall in H2. apply List.Forall_forall. intros p Hp. by apply ssub_ok, H2.
Qed.

Definition cls_of (middle : text) (o : setting) : text := forename o ++ middle ++ surname o.
Lemma denote_cls u middle : denote (rho u) (scls middle) = cls_of middle (u_set u).
Proof. unfold scls. rewrite !denote_app, denote_ks. cbn [denote meant]. by rewrite !app_nil_r. Qed.
Lemma declared u middle F : Forall (fun p => occurs (denote (rho u) p) F) (sdeclares middle) -> declares (cls_of middle (u_set u)) F.
Proof. intros [H _]%Forall_cons. unfold declares. by rewrite !denote_app, !denote_ks, denote_cls in H. Qed.
Lemma implemented u middle F : Forall (fun p => occurs (denote (rho u) p) F) (simplements middle) -> implements (cls_of middle (u_set u)) F.
Proof.
  intros [H1 [H2 _]%Forall_cons]%Forall_cons. unfold implements. rewrite !denote_app, !denote_ks, denote_cls in H1, H2. done.
Qed.

(** What a template has to define. *)
Definition pats_of (l : text) : list (list piece) :=
  if bool_decide (l ∈ [my_behavioural_test_hpp; my_class_test_hpp; my_class_allocation_test_hpp]) then sdeclares ⌜"_"⌝
  else if bool_decide (l ∈ [my_behavioural_test_cpp; my_class_test_cpp; my_class_allocation_test_cpp]) then simplements ⌜"_"⌝
  else if bool_decide (l = my_class_testing_diagnostics_hpp) then sdeclares ⌜"_false_negative_"⌝
  else if bool_decide (l = my_class_testing_diagnostics_cpp) then simplements ⌜"_false_negative_"⌝
  else [].

Definition behavioural_complete (l : text) (k : kind) (sq it : bool) : bool := complete (pats_of l) (sbehavioural k sq it (sline ++ ks (body l))).
Lemma behavioural_completed : for_all behavioural_complete behavioural_templates [Free; Perf] = true.
Proof. vm_compute. reflexivity. Qed.
Definition allocation_complete (l : text) (k : kind) (sq it : bool) : bool := complete (pats_of l) (sallocation k sq it (sline ++ ks (body l))).
Lemma allocation_completed : for_all allocation_complete allocation_templates [RegularAllocation; MoveOnlyAllocation] = true.
Proof. vm_compute. reflexivity. Qed.
Definition semantics_complete (eq tm : bool) (l : text) (k : kind) (sq it : bool) : bool :=
  complete (pats_of l) (ssemantics k eq tm sq it (sline ++ ks (body l))).
Lemma semantics_completed eq tm : for_all (semantics_complete eq tm) semantics_templates [Regular; MoveOnly] = true.
Proof. destruct eq, tm; vm_compute; reflexivity. Qed.

Definition found (u : unknowns) (l F : text) : Prop := "?"%char ∉ F /\ Forall (fun p => occurs (denote (rho u) p) F) (pats_of l).

Lemma behavioural_found sc year h o k l :
  ordinary o -> year_text year -> holder h -> test_type o = kind_name k -> (k = Free \/ k = Perf) -> l ∈ behavioural_templates ->
  exists u F, u_set u = o /\ file_text year h (behavioural_text sc o) l = Ok F /\ found u l F.
Proof.
  intros Ho Hy Hh Ht Hk Hl.
  destruct (settled o year h [] [] [] [] [] Ho Hy Hh (lacks_nil _) (lacks_nil _) (lacks_nil _) word_nil (lacks_nil _)) as (sq & it & Ha).
  set (u := settle o year h [] [] [] [] []) in *.
  assert (k ∈ [Free; Perf]) as Hin by (rewrite !elem_of_cons; destruct Hk as [-> | ->]; auto).
  pose proof (for_all_ok _ _ _ behavioural_completed l k sq it Hl Hin) as H. unfold behavioural_complete in H.
  destruct (complete_ok u _ _ (a_fine u _ _ Ha) H) as (s & Hs & E). exists u, (denote (rho u) s). split; [done|]. split; [|done].
  unfold file_text. rewrite top_copyright.
  - cbn [rbind]. change (with_copyright year h (body l)) with (with_copyright (u_year u) (u_holder u) (body l)). rewrite <- denote_file.
    change o with (u_set u) at 1. exact (sbehavioural_ok sc u k sq it _ s Ha Ht Hs).
  - clear -Hl. unfold behavioural_templates, templates in *. rewrite !elem_of_cons in *. rewrite elem_of_nil in Hl. tauto.
Qed.

Lemma allocation_found sc year h o k l :
  ordinary o -> year_text year -> holder h -> test_type o = kind_name k -> (k = RegularAllocation \/ k = MoveOnlyAllocation) -> l ∈ allocation_templates ->
  exists u F, u_set u = o /\ file_text year h (allocation_text sc o) l = Ok F /\ found u l F.
Proof.
  intros Ho Hy Hh Ht Hk Hl.
  destruct (settled o year h [] [] [] [] [] Ho Hy Hh (lacks_nil _) (lacks_nil _) (lacks_nil _) word_nil (lacks_nil _)) as (sq & it & Ha).
  set (u := settle o year h [] [] [] [] []) in *.
  assert (k ∈ [RegularAllocation; MoveOnlyAllocation]) as Hin by (rewrite !elem_of_cons; destruct Hk as [-> | ->]; auto).
  pose proof (for_all_ok _ _ _ allocation_completed l k sq it Hl Hin) as H. unfold allocation_complete in H.
  destruct (complete_ok u _ _ (a_fine u _ _ Ha) H) as (s & Hs & E). exists u, (denote (rho u) s). split; [done|]. split; [|done].
  unfold file_text. rewrite top_copyright.
  - cbn [rbind]. change (with_copyright year h (body l)) with (with_copyright (u_year u) (u_holder u) (body l)). rewrite <- denote_file.
    change o with (u_set u) at 1. exact (sallocation_ok sc u k sq it _ s Ha Ht Hs).
  - clear -Hl. unfold allocation_templates, templates in *. rewrite !elem_of_cons in *. rewrite elem_of_nil in Hl. tauto.
Qed.

Lemma semantics_found sc year h o k ds qn types args l :
  ordinary o -> year_text year -> holder h -> test_type o = kind_name k -> (k = Regular \/ k = MoveOnly) -> l ∈ semantics_templates ->
  lacks (⌜"?;"⌝ ++ [tab]) (data_text ds) -> lacks ⌜"?"⌝ qn -> equivalents types = Ok args -> lacks (⌜"?;"⌝ ++ [tab]) args ->
  exists u F, u_set u = o /\ file_text year h (semantics_text sc o ds qn types) l = Ok F /\ found u l F.
Proof.
  intros Ho Hy Hh Ht Hk Hl Hd Hq He Hargs.
  destruct (settled o year h (data_text ds) qn args (prediction (length types) 0 []) [] Ho Hy Hh Hd Hq Hargs (prediction_word _) (lacks_nil _)) as (sq & it & Ha).
  set (u := settle o year h (data_text ds) qn args (prediction (length types) 0 []) []) in *.
  assert (k ∈ [Regular; MoveOnly]) as Hin by (rewrite !elem_of_cons; destruct Hk as [-> | ->]; auto).
  pose proof (for_all_ok _ _ _ (semantics_completed (negb (bool_decide (types = []))) (negb (bool_decide (u_data u = [])))) l k sq it Hl Hin) as H.
  unfold semantics_complete in H. destruct (complete_ok u _ _ (a_fine u _ _ Ha) H) as (s & Hs & E). exists u, (denote (rho u) s).
  split; [done|]. split; [|done].
  unfold file_text. rewrite top_copyright.
  - cbn [rbind]. change (with_copyright year h (body l)) with (with_copyright (u_year u) (u_holder u) (body l)). rewrite <- denote_file.
    change o with (u_set u) at 1. change qn with (u_name u) at 1.
    exact (ssemantics_ok sc u k sq it _ s ds types Ha Ht Hk He eq_refl eq_refl Hs).
  - clear -Hl. unfold semantics_templates, templates in *. rewrite !elem_of_cons in *. rewrite elem_of_nil in Hl. tauto.
Qed.

(** ** The claims *)

Definition standard_class (o : setting) : text := forename o ++ ⌜"_"⌝ ++ surname o.

Lemma behavioural_defined sc year h o k :
  ordinary o -> year_text year -> holder h -> test_type o = kind_name k -> (k = Free \/ k = Perf) ->
  exists hpp cpp, file_text year h (behavioural_text sc o) my_behavioural_test_hpp = Ok hpp
    /\ file_text year h (behavioural_text sc o) my_behavioural_test_cpp = Ok cpp
    /\ declares (behavioural_class (forename o) [] (surname o)) hpp /\ implements (behavioural_class (forename o) [] (surname o)) cpp.
Proof.
  intros Ho Hy Hh Ht Hk.
  destruct (behavioural_found sc year h o k my_behavioural_test_hpp Ho Hy Hh Ht Hk) as (u & F & <- & E1 & _ & H1); [left|].
  destruct (behavioural_found sc year h (u_set u) k my_behavioural_test_cpp Ho Hy Hh Ht Hk) as (u' & F' & Eu & E2 & _ & H2); [right; left|].
  exists F, F'. split; [done|]. split; [done|]. split; [by apply (declared u)|]. rewrite <- Eu. by apply (implemented u').
Qed.

Lemma allocation_defined sc year h o k :
  ordinary o -> year_text year -> holder h -> test_type o = kind_name k -> (k = RegularAllocation \/ k = MoveOnlyAllocation) ->
  exists hpp cpp, file_text year h (allocation_text sc o) my_class_allocation_test_hpp = Ok hpp
    /\ file_text year h (allocation_text sc o) my_class_allocation_test_cpp = Ok cpp
    /\ declares (forename o ++ ⌜"_"⌝ ++ surname o) hpp /\ implements (forename o ++ ⌜"_"⌝ ++ surname o) cpp.
Proof.
  intros Ho Hy Hh Ht Hk.
  destruct (allocation_found sc year h o k my_class_allocation_test_hpp Ho Hy Hh Ht Hk) as (u & F & <- & E1 & _ & H1); [left|].
  destruct (allocation_found sc year h (u_set u) k my_class_allocation_test_cpp Ho Hy Hh Ht Hk) as (u' & F' & Eu & E2 & _ & H2); [right; left|].
  exists F, F'. split; [done|]. split; [done|]. split; [by apply (declared u)|]. rewrite <- Eu. by apply (implemented u').
Qed.

Lemma semantics_defined sc year h o k ds qn types args :
  ordinary o -> year_text year -> holder h -> test_type o = kind_name k -> (k = Regular \/ k = MoveOnly) ->
  lacks (⌜"?;"⌝ ++ [tab]) (data_text ds) -> lacks ⌜"?"⌝ qn -> equivalents types = Ok args -> lacks (⌜"?;"⌝ ++ [tab]) args ->
  exists hpp cpp dhpp dcpp,
    file_text year h (semantics_text sc o ds qn types) my_class_test_hpp = Ok hpp
    /\ file_text year h (semantics_text sc o ds qn types) my_class_test_cpp = Ok cpp
    /\ file_text year h (semantics_text sc o ds qn types) my_class_testing_diagnostics_hpp = Ok dhpp
    /\ file_text year h (semantics_text sc o ds qn types) my_class_testing_diagnostics_cpp = Ok dcpp
    /\ declares (forename o ++ ⌜"_"⌝ ++ surname o) hpp /\ implements (forename o ++ ⌜"_"⌝ ++ surname o) cpp
    /\ declares (forename o ++ ⌜"_false_negative_"⌝ ++ surname o) dhpp /\ implements (forename o ++ ⌜"_false_negative_"⌝ ++ surname o) dcpp.
Proof.
  intros Ho Hy Hh Ht Hk Hd Hq He Hargs.
  pose proof (fun l Hl => semantics_found sc year h o k ds qn types args l Ho Hy Hh Ht Hk Hl Hd Hq He Hargs) as H.
  destruct (H my_class_test_hpp) as (u1 & F1 & U1 & E1 & _ & H1); [do 3 right; left|].
  destruct (H my_class_test_cpp) as (u2 & F2 & U2 & E2 & _ & H2); [do 4 right; left|].
  destruct (H my_class_testing_diagnostics_hpp) as (u3 & F3 & U3 & E3 & _ & H3); [do 1 right; left|].
  destruct (H my_class_testing_diagnostics_cpp) as (u4 & F4 & U4 & E4 & _ & H4); [do 2 right; left|].
  exists F1, F2, F3, F4. split_and!; [done..| | | |].
  - rewrite <- U1. by apply (declared u1).
  - rewrite <- U2. by apply (implemented u2).
  - rewrite <- U3. by apply (declared u3).
  - rewrite <- U4. by apply (implemented u4).
Qed.

(** Headers and sources *)
Definition complete2 (ne : bool) (pats : list (list piece)) (pipe : list piece -> option (list piece)) (rest : text) : bool :=
  match snamespace ne (sline ++ ks rest) with
  | Some s => complete ((if ne then [ks ⌜"namespace "⌝ ++ [V 14; K nl]] else []) ++ pats) (pipe s)
  | None => false
  end.
Lemma complete2_ok u pats pipe rest : fine u -> complete2 (negb (bool_decide (u_ns u = []))) pats pipe rest = true ->
  exists s s', process_namespace (with_copyright (u_year u) (u_holder u) rest) (u_ns u) = Ok (denote (rho u) s) /\ pipe s = Some s'
    /\ "?"%char ∉ denote (rho u) s' /\ (u_ns u <> [] -> occurs (⌜"namespace "⌝ ++ u_ns u ++ [nl]) (denote (rho u) s'))
    /\ Forall (fun p => occurs (denote (rho u) p) (denote (rho u) s')) pats.
Proof.
  intros Hf. unfold complete2. destruct (snamespace _ _) as [s|] eqn:E1; [|done]. intros H.
  destruct (complete_ok u _ _ Hf H) as (s' & E2 & H1 & H2). apply Forall_app in H2 as [H2 H3]. exists s, s'. split_and!; [|done|done| |done].
  - rewrite <- denote_file. by apply snamespace_ok.
  - intros Hn. rewrite bool_decide_eq_false_2 in H2 by done. cbn [negb] in H2. apply Forall_cons in H2 as [H2 _].
    rewrite denote_app, denote_ks in H2. cbn [denote meant] in H2. rewrite app_nil_r in H2. exact H2.
Qed.

Lemma class_completed regular : four (fun ne tm it => complete2 ne [ks ⌜"class "⌝ ++ [V 1; K nl]] (sclass tm it) (body (class_template regular))) = true.
Proof. destruct regular; vm_compute; reflexivity. Qed.
Lemma source_completed : four (fun ne it _ => complete2 ne [ks ⌜"#include """⌝ ++ [V 4] ++ ks (⌜""""⌝ ++ [nl])] (ssource it) (body my_cpp_cpp)) = true.
Proof. vm_compute; reflexivity. Qed.
Lemma functions_completed : four (fun ne _ _ => complete2 ne [] Some (body my_free_functions_hpp)) = true.
Proof. vm_compute; reflexivity. Qed.

Lemma class_defined year h o ds ns regular :
  ordinary o -> year_text year -> holder h -> lacks (⌜"?;"⌝ ++ [tab]) (data_text ds) -> lacks (⌜"?<"⌝ ++ [tab; nl]) ns ->
  exists F, class_header_text year h ns o ds (class_template regular) = Ok F /\ "?"%char ∉ F
    /\ (ns <> [] -> occurs (⌜"namespace "⌝ ++ ns ++ [nl]) F) /\ occurs (⌜"class "⌝ ++ forename o ++ [nl]) F.
Proof.
  intros Ho Hy Hh Hd Hn.
  destruct (settled o year h (data_text ds) [] [] [] ns Ho Hy Hh Hd (lacks_nil _) (lacks_nil _) word_nil Hn) as (sq & it & Ha).
  set (u := settle o year h (data_text ds) [] [] [] ns) in *.
  pose proof (four_ok _ (class_completed regular) (negb (bool_decide (u_ns u = []))) (negb (bool_decide (u_data u = []))) it) as H. cbn beta in H.
  destruct (complete2_ok u _ _ _ (a_fine u _ _ Ha) H) as (s & s' & H1 & H2 & H3 & H4 & H5).
  exists (denote (rho u) s'). split_and!; [|done|exact H4|].
  - unfold class_header_text. rewrite top_copyright.
    + cbn [rbind]. change (process_namespace _ ns) with (process_namespace (with_copyright (u_year u) (u_holder u) (body (class_template regular))) (u_ns u)).
      rewrite H1. cbn [rbind]. exact (sclass_ok u sq it ds s s' Ha eq_refl H2).
    + destruct regular; unfold class_template, templates; rewrite !elem_of_cons; tauto.
  - apply Forall_cons in H5 as [H5 _]. rewrite denote_app, denote_ks in H5. cbn [denote meant] in H5. rewrite app_nil_r in H5. exact H5.
Qed.

Lemma source_defined year h ns o :
  ordinary o -> year_text year -> holder h -> lacks (⌜"?<"⌝ ++ [tab; nl]) ns ->
  exists F, source_text year h ns (header_path o) (code_indent o) my_cpp_cpp = Ok F /\ "?"%char ∉ F
    /\ (ns <> [] -> occurs (⌜"namespace "⌝ ++ ns ++ [nl]) F) /\ occurs (⌜"#include """⌝ ++ header_path o ++ ⌜""""⌝ ++ [nl]) F.
Proof.
  intros Ho Hy Hh Hn.
  destruct (settled o year h [] [] [] [] ns Ho Hy Hh (lacks_nil _) (lacks_nil _) (lacks_nil _) word_nil Hn) as (sq & it & Ha).
  set (u := settle o year h [] [] [] [] ns) in *.
  pose proof (four_ok _ source_completed (negb (bool_decide (u_ns u = []))) it true) as H. cbn beta in H.
  pose proof (a_fine u _ _ Ha) as Hf.
  destruct (complete2_ok u _ _ _ Hf H) as (s & s' & H1 & H2 & H3 & H4 & H5).
  exists (denote (rho u) s'). split_and!; [|done|exact H4|].
  - unfold source_text. rewrite top_copyright.
    + cbn [rbind]. change (process_namespace _ ns) with (process_namespace (with_copyright (u_year u) (u_holder u) (body my_cpp_cpp)) (u_ns u)).
      rewrite H1. cbn [rbind]. unfold ssource in H2. destruct (ssubst _ _ s _ _) as [s2|] eqn:E2; [|done].
      apply (ssubst_ok FF BB (rho u) (HFF u Hf) (HBB u Hf)) in E2. cbn [denote meant] in E2. rewrite app_nil_r in E2.
      change (rho u 4) with (header_path o) in E2. rewrite E2. cbn [rbind]. apply (untab_step u) in H2; [|done].
      rewrite <- (a_it _ _ _ Ha) in H2. exact H2.
    + unfold templates; rewrite !elem_of_cons; tauto.
  - apply Forall_cons in H5 as [H5 _]. rewrite !denote_app, !denote_ks in H5. cbn [denote meant] in H5. rewrite app_nil_r in H5. exact H5.
Qed.

Lemma functions_defined year h ns :
  year_text year -> holder h -> lacks (⌜"?<"⌝ ++ [tab; nl]) ns ->
  exists F, functions_header_text year h ns my_free_functions_hpp = Ok F /\ "?"%char ∉ F
    /\ (ns <> [] -> occurs (⌜"namespace "⌝ ++ ns ++ [nl]) F).
Proof.
  intros Hy Hh Hn.
  destruct (settled _ year h [] [] [] [] ns word_o Hy Hh (lacks_nil _) (lacks_nil _) (lacks_nil _) word_nil Hn) as (sq & it & Ha).
  set (u := settle _ year h [] [] [] [] ns) in *.
  pose proof (four_ok _ functions_completed (negb (bool_decide (u_ns u = []))) it true) as H. cbn beta in H.
  destruct (complete2_ok u _ _ _ (a_fine u _ _ Ha) H) as (s & s' & H1 & H2 & H3 & H4 & _). injection H2 as <-.
  exists (denote (rho u) s). split_and!; [|done|exact H4].
  unfold functions_header_text. rewrite top_copyright.
  - cbn [rbind]. change (process_namespace _ ns) with (process_namespace (with_copyright (u_year u) (u_holder u) (body my_free_functions_hpp)) (u_ns u)).
    rewrite H1. done.
  - unfold templates; rewrite !elem_of_cons; tauto.
Qed.

(** ** The line about the copyright, in general *)

Lemma occurs_slashes l j : occurs_at ⌜"//"⌝ l j -> l !! j = Some "/"%char /\ l !! S j = Some "/"%char.
Proof.
  intros (a & b & -> & <-). cbn [list_ascii_of_string app]. split; [by apply list_lookup_middle|].
  change (a ++ "/"%char :: "/"%char :: b) with (a ++ ["/"%char] ++ "/"%char :: b). rewrite app_assoc. apply list_lookup_middle.
  rewrite app_length. cbn [length]. lia.
Qed.
Lemma last_slashes a b : "/"%char ∉ b -> Edit.Model.find_last ⌜"//"⌝ (a ++ ⌜"//"⌝ ++ b) = Some (length a).
Proof.
  intros Hb. apply find_last_Some; [by exists a, b|]. intros j [H1 H2]%occurs_slashes.
  destruct (decide (j <= length a)) as [|Hj]; [done|]. exfalso. rewrite lookup_app_r in H2 by lia.
  replace (S j - length a) with (S (S (j - length a - 1))) in H2 by lia. change (b !! (j - length a - 1) = Some "/"%char) in H2.
  by apply elem_of_list_lookup_2 in H2.
Qed.
Lemma first_slashes b d : "/"%char ∉ b -> find_first ⌜"//"⌝ (b ++ ⌜"//"⌝ ++ d) = Some (length b).
Proof.
  intros Hb. apply find_first_Some. split; [by exists b, d|]. intros j [H1 H2]%occurs_slashes.
  destruct (decide (length b <= j)) as [|Hj]; [done|]. exfalso. rewrite lookup_app_l in H1 by lia. by apply elem_of_list_lookup_2 in H1.
Qed.

Lemma top_general year h a b1 b2 d :
  "/"%char ∉ b1 ++ b2 -> ~ (exists j, j < length (a ++ ⌜"//"⌝ ++ b1) /\ occurs_at ⌜"Copyright"⌝ (a ++ ⌜"//"⌝ ++ (b1 ++ ⌜"Copyright"⌝ ++ b2) ++ ⌜"//"⌝ ++ d) j) ->
  set_top_copyright year (a ++ ⌜"//"⌝ ++ (b1 ++ ⌜"Copyright"⌝ ++ b2) ++ ⌜"//"⌝ ++ d) h
  = Ok (a ++ ⌜"//"⌝ ++ centred (length (b1 ++ ⌜"Copyright"⌝ ++ b2)) (headline year h) ++ ⌜"//"⌝ ++ d).
Proof.
  intros Hs Hfirst. set (l := a ++ ⌜"//"⌝ ++ (b1 ++ ⌜"Copyright"⌝ ++ b2) ++ ⌜"//"⌝ ++ d) in *. unfold set_top_copyright.
  assert ("/"%char ∉ b1 /\ "/"%char ∉ b2) as [Hs1 Hs2] by (rewrite elem_of_app in Hs; tauto).
  assert (find_first ⌜"Copyright"⌝ l = Some (length (a ++ ⌜"//"⌝ ++ b1))) as ->.
  { apply find_first_Some. split; [exists (a ++ ⌜"//"⌝ ++ b1), (b2 ++ ⌜"//"⌝ ++ d); split; [|done]; unfold l; by rewrite <- !app_assoc|].
    intros j Ho. destruct (decide (length (a ++ ⌜"//"⌝ ++ b1) <= j)) as [|Hj]; [done|]. destruct Hfirst. exists j. split; [lia|done]. }
  assert (rfind_by ⌜"//"⌝ l (length (a ++ ⌜"//"⌝ ++ b1)) = Some (length a)) as ->.
  { unfold rfind_by. replace (take _ l) with (a ++ ⌜"//"⌝ ++ (b1 ++ ⌜"Co"⌝)).
    - apply last_slashes. rewrite elem_of_app. intros [?|H]; [done|]. revert H. apply (bool_decide_unpack _). by vm_compute.
    - symmetry. unfold l. replace (a ++ ⌜"//"⌝ ++ (b1 ++ ⌜"Copyright"⌝ ++ b2) ++ ⌜"//"⌝ ++ d)
        with ((a ++ ⌜"//"⌝ ++ b1 ++ ⌜"Co"⌝) ++ ⌜"pyright"⌝ ++ b2 ++ ⌜"//"⌝ ++ d) by (by rewrite <- !app_assoc).
      apply take_app_alt. rewrite !app_length. cbn [length list_ascii_of_string]. lia. }
  assert (find_from l ⌜"//"⌝ (length (a ++ ⌜"//"⌝ ++ b1)) = Some (length (a ++ ⌜"//"⌝ ++ b1) + length (⌜"Copyright"⌝ ++ b2))) as ->.
  { replace l with ((a ++ ⌜"//"⌝ ++ b1) ++ (⌜"Copyright"⌝ ++ b2) ++ ⌜"//"⌝ ++ d) by (unfold l; by rewrite <- !app_assoc).
    rewrite find_from_app, first_slashes; [done|]. rewrite elem_of_app. intros [H|?]; [|done]. revert H. apply (bool_decide_unpack _). by vm_compute. }
  f_equal. fold (headline year h).
  replace (length (a ++ ⌜"//"⌝ ++ b1) + length (⌜"Copyright"⌝ ++ b2) - length a - 2) with (length (b1 ++ ⌜"Copyright"⌝ ++ b2))
    by (rewrite !app_length; cbn [length list_ascii_of_string]; lia).
  unfold splice. set (M := b1 ++ ⌜"Copyright"⌝ ++ b2) in *.
  assert (take (length a + 2) l = a ++ ⌜"//"⌝) as ->.
  { unfold l. rewrite app_assoc. apply take_app_alt. by rewrite app_length. }
  assert (drop (length a + 2 + length M) l = ⌜"//"⌝ ++ d) as ->.
  { unfold l. rewrite app_assoc, (app_assoc (a ++ ⌜"//"⌝)). apply drop_app_alt. by rewrite !app_length. }
  unfold centred. rewrite <- !app_assoc. done.
Qed.

Lemma top_missing year h l : ~ occurs ⌜"Copyright"⌝ l \/ ~ occurs ⌜"//"⌝ l -> set_top_copyright year l h = Throw RuntimeError.
Proof.
  unfold set_top_copyright. intros [H|H].
  - by rewrite (proj2 (find_first_None _ _) H).
  - destruct (find_first ⌜"Copyright"⌝ l) as [pos|]; [|done].
    assert (rfind_by ⌜"//"⌝ l pos = None) as ->; [|done].
    unfold rfind_by. apply find_last_None. intros (i & a & b & E & Ei). apply H. exists i, a, (b ++ drop (pos + length ⌜"//"⌝) l).
    split; [|done]. rewrite <- (take_drop (pos + length ⌜"//"⌝) l) at 1. rewrite E. by rewrite <- !app_assoc.
Qed.

(** ** No placeholder is left; what is registered *)

Lemma behavioural_clean sc year h o k l :
  ordinary o -> year_text year -> holder h -> test_type o = kind_name k -> (k = Free \/ k = Perf) -> l ∈ behavioural_templates ->
  exists F, file_text year h (behavioural_text sc o) l = Ok F /\ "?"%char ∉ F.
Proof. intros Ho Hy Hh Ht Hk Hl. destruct (behavioural_found sc year h o k l Ho Hy Hh Ht Hk Hl) as (u & F & _ & E & H & _). by exists F. Qed.
Lemma allocation_clean sc year h o k l :
  ordinary o -> year_text year -> holder h -> test_type o = kind_name k -> (k = RegularAllocation \/ k = MoveOnlyAllocation) -> l ∈ allocation_templates ->
  exists F, file_text year h (allocation_text sc o) l = Ok F /\ "?"%char ∉ F.
Proof. intros Ho Hy Hh Ht Hk Hl. destruct (allocation_found sc year h o k l Ho Hy Hh Ht Hk Hl) as (u & F & _ & E & H & _). by exists F. Qed.
Lemma semantics_clean sc year h o k ds qn types args l :
  ordinary o -> year_text year -> holder h -> test_type o = kind_name k -> (k = Regular \/ k = MoveOnly) -> l ∈ semantics_templates ->
  lacks (⌜"?;"⌝ ++ [tab]) (data_text ds) -> lacks ⌜"?"⌝ qn -> equivalents types = Ok args -> lacks (⌜"?;"⌝ ++ [tab]) args ->
  exists F, file_text year h (semantics_text sc o ds qn types) l = Ok F /\ "?"%char ∉ F.
Proof.
  intros Ho Hy Hh Ht Hk Hl Hd Hq He Ha.
  destruct (semantics_found sc year h o k ds qn types args l Ho Hy Hh Ht Hk Hl Hd Hq He Ha) as (u & F & _ & E & H & _). by exists F.
Qed.

Lemma allocation_registered sc year h o k :
  ordinary o -> year_text year -> holder h -> test_type o = kind_name k -> (k = RegularAllocation \/ k = MoveOnlyAllocation) ->
  exists hpp cpp cls title, file_text year h (allocation_text sc o) my_class_allocation_test_hpp = Ok hpp
    /\ file_text year h (allocation_text sc o) my_class_allocation_test_cpp = Ok cpp
    /\ allocation_constructors (forename o) (surname o) = [cls ++ title] /\ head title = Some "{"%char
    /\ declares cls hpp /\ implements cls cpp.
Proof.
  intros Ho Hy Hh Ht Hk. destruct (allocation_defined sc year h o k Ho Hy Hh Ht Hk) as (hpp & cpp & E1 & E2 & H1 & H2).
  exists hpp, cpp, (forename o ++ ⌜"_"⌝ ++ surname o), ⌜"{""Allocation Test""}"⌝. split_and!; try done.
  unfold allocation_constructors. by rewrite <- !app_assoc.
Qed.
Lemma semantics_registered sc year h o k ds qn types args :
  ordinary o -> year_text year -> holder h -> test_type o = kind_name k -> (k = Regular \/ k = MoveOnly) ->
  lacks (⌜"?;"⌝ ++ [tab]) (data_text ds) -> lacks ⌜"?"⌝ qn -> equivalents types = Ok args -> lacks (⌜"?;"⌝ ++ [tab]) args ->
  exists hpp cpp dhpp dcpp cls title dcls dtitle,
    file_text year h (semantics_text sc o ds qn types) my_class_test_hpp = Ok hpp
    /\ file_text year h (semantics_text sc o ds qn types) my_class_test_cpp = Ok cpp
    /\ file_text year h (semantics_text sc o ds qn types) my_class_testing_diagnostics_hpp = Ok dhpp
    /\ file_text year h (semantics_text sc o ds qn types) my_class_testing_diagnostics_cpp = Ok dcpp
    /\ semantics_constructors (forename o) (surname o) = [dcls ++ dtitle; cls ++ title]
    /\ head title = Some "{"%char /\ head dtitle = Some "{"%char
    /\ declares cls hpp /\ implements cls cpp /\ declares dcls dhpp /\ implements dcls dcpp.
Proof.
  intros Ho Hy Hh Ht Hk Hd Hq He Ha.
  destruct (semantics_defined sc year h o k ds qn types args Ho Hy Hh Ht Hk Hd Hq He Ha) as (h1 & c1 & h2 & c2 & E1 & E2 & E3 & E4 & H1 & H2 & H3 & H4).
  exists h1, c1, h2, c2, (forename o ++ ⌜"_"⌝ ++ surname o), ⌜"{""Unit Test""}"⌝, (forename o ++ ⌜"_false_negative_"⌝ ++ surname o), ⌜"{""False Negative Test""}"⌝.
  split_and!; try done. unfold semantics_constructors. by rewrite <- !app_assoc.
Qed.

(** ** Counterexamples *)

Definition occurring (P l : text) : bool := match find_first P l with Some _ => true | None => false end.
Lemma occurring_ok P l : occurring P l = true -> occurs P l.
Proof. unfold occurring. destruct (find_first P l) as [i|] eqn:E; [|done]. intros _. apply find_first_Some in E as [E _]. by exists i. Qed.

Definition twice_setting : setting := Setting ⌜"foo"⌝ ⌜"test"⌝ (kind_name Free) ⌜"Foo"⌝ ⌜"Bar/Foo.hpp"⌝ ⌜"proj"⌝ ⌜"  "⌝.
Definition twice_text : text :=
  match file_text ⌜"2024"⌝ ⌜"Jane Doe"⌝ (behavioural_text true twice_setting) my_behavioural_diagnostics_hpp with Ok F => F | _ => [] end.
Definition class_line (cls : text) : text := ⌜"class "⌝ ++ cls ++ ⌜" final : public "⌝.
Definition twice_cut : nat := match Edit.Model.find_last (class_line ⌜"foo_false_negative_test"⌝) twice_text with Some i => i | None => 0 end.
Lemma diagnostics_twice : exists F a b,
  file_text ⌜"2024"⌝ ⌜"Jane Doe"⌝ (behavioural_text true twice_setting) my_behavioural_diagnostics_hpp = Ok F
  /\ behavioural_constructors true Diagnostics ⌜"foo"⌝ ⌜"test"⌝
     = Ok [⌜"foo_false_positive_test{""Foo False Positive Test""}"⌝; ⌜"foo_false_negative_test{""Foo False Negative Test""}"⌝]
  /\ ~ declares ⌜"foo_false_positive_test"⌝ F
  /\ F = a ++ b /\ declares ⌜"foo_false_negative_test"⌝ a /\ declares ⌜"foo_false_negative_test"⌝ b.
Proof.
  exists twice_text, (take twice_cut twice_text), (drop twice_cut twice_text).
  split; [vm_compute; reflexivity|]. split; [vm_compute; reflexivity|]. split; [apply find_first_None; vm_compute; reflexivity|].
  split; [by rewrite take_drop|]. split; apply occurring_ok; vm_compute; reflexivity.
Qed.

Definition tabs_setting : setting := Setting ⌜"foo"⌝ ⌜"test"⌝ (kind_name RegularAllocation) ⌜"Foo"⌝ ⌜"Bar/Foo.hpp"⌝ ⌜"proj"⌝ [tab; tab].
Definition tabs_text : text :=
  match file_text ⌜"2024"⌝ ⌜"Jane Doe"⌝ (allocation_text true tabs_setting) my_class_allocation_test_hpp with Ok F => F | _ => [] end.
Lemma indent_twice : exists o F, code_indent o = [tab; tab]
  /\ file_text ⌜"2024"⌝ ⌜"Jane Doe"⌝ (allocation_text true o) my_class_allocation_test_hpp = Ok F
  /\ occurs ([nl; tab; tab; tab; tab] ++ ⌜"using namespace sequoia::testing;"⌝ ++ [nl]) F
  /\ occurs ([nl; tab] ++ ⌜"using namespace sequoia::testing;class "⌝) my_class_allocation_test_hpp.
Proof.
  exists tabs_setting, tabs_text. split; [done|]. split; [vm_compute; reflexivity|]. split; apply occurring_ok; vm_compute; reflexivity.
Qed.
