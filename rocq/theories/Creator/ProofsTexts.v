(** Proofs that the files made are what the templates say, for all names. *)
From Coq Require Import Ascii String.
From stdpp Require Import list.
From Verif.Base Require Import Outcome ListLemmas.
From Verif.Text Require Import Model Spec Proofs ProofsIndent.
From Verif.Edit Require Model Proofs.
From Verif.Creator Require Import Model Templates Spec Symbolic ProofsFiles.
Local Open Scope res_scope.
Local Notation "⌜ s ⌝" := (list_ascii_of_string s%string).

(** ** The unknowns *)

Definition all_chars : text := Eval vm_compute in map ascii_of_nat (seq 0 256).
Lemma all_chars_all c : c ∈ all_chars.
Proof.
  assert (all_chars = map ascii_of_nat (seq 0 256)) as -> by by vm_compute.
  apply elem_of_list_fmap. exists (nat_of_ascii c). split; [by rewrite ascii_nat_embedding|]. apply elem_of_list_In, in_seq.
  pose proof (nat_ascii_bounded c). lia.
Qed.
Definition others (ok : char -> bool) : text := filter (fun c => ok c = false) all_chars.
Definition not_ident : text := Eval vm_compute in others ident_char.
Definition not_digit : text := Eval vm_compute in others digit.
Definition not_blank : text := Eval vm_compute in others (fun c => bool_decide (c = blank)).

(** 0 namespace of the project, 1 forename, 2 surname, 3 camel name, 4 header, 5 indentation, 6 left space,
    7 holder of the copyright, 8 year, 9 right space, 10 template parameters, 11 qualified name, 12 arguments,
    13 prediction, 14 namespace *)
Definition Fs : list text :=
  [not_ident; not_ident; not_ident; not_ident; ⌜"?"⌝ ++ [tab]; not_blank; not_blank; ⌜"?$;<"⌝ ++ [tab; nl]; not_digit; not_blank;
   ⌜"?;"⌝ ++ [tab]; ⌜"?"⌝; ⌜"?;"⌝ ++ [tab]; not_ident; ⌜"?<"⌝ ++ [tab; nl]].
Definition FF (v : nat) : text := nth v Fs [].
Definition BB (v : nat) : list text := if decide (v = 7) then [⌜"namespace"⌝; ⌜"bool PropagateCopy,"⌝] else [].

Record unknowns := Unknowns {
  u_set : setting; u_indent : text; u_year : text; u_holder : text; u_data : text; u_name : text; u_args : text;
  u_prediction : text; u_ns : text }.
Definition space_of (u : unknowns) : nat := 64 - length (headline (u_year u) (u_holder u)).
Definition rho (u : unknowns) (v : nat) : text :=
  nth v [project_namespace (u_set u); forename (u_set u); surname (u_set u); camel (u_set u); header_path (u_set u);
         u_indent u; replicate (space_of u - space_of u / 2) blank; u_holder u; u_year u; replicate (space_of u / 2) blank;
         u_data u; u_name u; u_args u; u_prediction u; u_ns u] [].
Record fine (u : unknowns) : Prop := {
  fine_set : word (forename (u_set u)) /\ word (surname (u_set u)) /\ word (camel (u_set u)) /\ word (project_namespace (u_set u))
    /\ lacks (⌜"?"⌝ ++ [tab]) (header_path (u_set u));
  fine_indent : Forall (fun c => c = blank) (u_indent u);
  fine_year : year_text (u_year u); fine_holder : holder (u_holder u);
  fine_data : lacks (⌜"?;"⌝ ++ [tab]) (u_data u); fine_name : lacks ⌜"?"⌝ (u_name u);
  fine_args : lacks (⌜"?;"⌝ ++ [tab]) (u_args u); fine_prediction : word (u_prediction u); fine_ns : lacks (⌜"?<"⌝ ++ [tab; nl]) (u_ns u) }.

Lemma others_ok ok c l : c ∈ others ok -> Forall (fun c => ok c = true) l -> c ∉ l.
Proof. unfold others. rewrite elem_of_list_filter. intros [H _] Hl Hc. rewrite Forall_forall in Hl. specialize (Hl c Hc). congruence. Qed.
Lemma word_ok c l : c ∈ not_ident -> word l -> c ∉ l.
Proof. assert (not_ident = others ident_char) as -> by by vm_compute. apply others_ok. Qed.
Lemma year_ok c l : c ∈ not_digit -> year_text l -> c ∉ l.
Proof. assert (not_digit = others digit) as -> by by vm_compute. apply others_ok. Qed.
Lemma blanks_ok c l : c ∈ not_blank -> Forall (fun c => c = blank) l -> c ∉ l.
Proof.
  assert (not_blank = others (fun c => bool_decide (c = blank))) as -> by by vm_compute. intros Hc Hl. apply (others_ok _ c l Hc).
  eapply Forall_impl; [exact Hl|]. intros x ->. by vm_compute.
Qed.
Lemma lacks_ok bad c l : c ∈ bad -> lacks bad l -> c ∉ l.
Proof. intros Hc Hl H. unfold lacks in Hl. rewrite Forall_forall in Hl. by apply (Hl c H). Qed.

Lemma HFF u : fine u -> forall v c, c ∈ FF v -> c ∉ rho u v.
Proof.
  intros [(H1 & H2 & H3 & H0 & H4) H5 H8 (H7 & _ & _) H10 H11 H12 H13 H14] v c Hc.
  assert (forall n, Forall (fun c => c = blank) (replicate n blank)) as Hb by (intros n; by apply Forall_replicate).
  do 15 (destruct v as [|v]; [unfold FF in Hc; cbn [nth Fs] in Hc; unfold rho; cbn [nth];
    first [by apply word_ok|by apply year_ok|by apply blanks_ok|by eapply lacks_ok]|]).
  unfold FF, Fs in Hc. cbn [nth] in Hc. destruct v; by apply not_elem_of_nil in Hc.
Qed.
Lemma HBB u : fine u -> forall v P, P ∈ BB v -> ~ occurs P (rho u v).
Proof.
  intros [_ _ _ (_ & H1 & H2) _ _ _ _ _] v P. unfold BB. destruct (decide (v = 7)) as [->|]; [|intros H; by apply not_elem_of_nil in H].
  rewrite !elem_of_cons, elem_of_nil. by intros [-> |[-> |[]]].
Qed.

(** ** The line about the copyright *)

Definition sline : list piece :=
  ks (replicate 68 "/"%char ++ [nl] ++ ⌜"//"⌝) ++ [V 6] ++ ks ⌜"Copyright "⌝ ++ [V 7] ++ ks ⌜" "⌝ ++ [V 8] ++ ks ⌜"."⌝ ++ [V 9] ++ ks ⌜"//"⌝.
Lemma with_copyright_app year h rest : with_copyright year h rest = with_copyright year h [] ++ rest.
Proof. unfold with_copyright. by rewrite <- !(assoc_L (++)). Qed.
Lemma denote_sline u : denote (rho u) sline = with_copyright (u_year u) (u_holder u) [].
Proof.
  unfold sline, with_copyright, centred, headline. rewrite !denote_app, !denote_ks. cbn [denote meant]. rewrite !app_nil_r, <- !(assoc_L (++)).
  unfold rho. cbn [nth]. unfold space_of, headline. done.
Qed.

Definition templates : list text :=
  [my_behavioural_diagnostics_cpp; my_behavioural_diagnostics_hpp; my_behavioural_test_cpp; my_behavioural_test_hpp;
   my_class_allocation_test_cpp; my_class_allocation_test_hpp; my_class_test_cpp; my_class_test_hpp;
   my_class_testing_diagnostics_cpp; my_class_testing_diagnostics_hpp; my_class_testing_utilities_hpp;
   my_cpp_cpp; my_free_functions_hpp; my_move_only_class_hpp; my_regular_class_hpp].
Definition top_check (l : text) : bool :=
  bool_decide (take 71 l = replicate 68 "/"%char ++ [nl] ++ ⌜"//"⌝)
  && bool_decide (drop 135 l = ⌜"//"⌝ ++ body l)
  && match find_first ⌜"Copyright"⌝ l with
     | Some pos => bool_decide (rfind_by ⌜"//"⌝ l pos = Some 69) && bool_decide (find_from l ⌜"//"⌝ pos = Some 135)
     | None => false
     end.
Lemma top_checked : forallb top_check templates = true.
Proof. by vm_compute. Qed.

Lemma top_ok year h l : top_check l = true -> set_top_copyright year l h = Ok (with_copyright year h (body l)).
Proof.
  unfold top_check, set_top_copyright. intros [[H1 H2]%andb_prop H3]%andb_prop. apply bool_decide_eq_true in H1, H2.
  destruct (find_first _ l) as [pos|]; [|done]. apply andb_prop in H3 as [H3 H4]. apply bool_decide_eq_true in H3, H4.
  rewrite H3, H4. f_equal. unfold splice, with_copyright, centred. fold (headline year h).
  replace (135 - 69 - 2) with 64 by lia. replace (69 + 2) with 71 by lia. rewrite H1. replace (71 + 64) with 135 by lia. rewrite H2.
  by rewrite <- !(assoc_L (++)).
Qed.
Lemma top_copyright year h l : l ∈ templates -> set_top_copyright year l h = Ok (with_copyright year h (body l)).
Proof. intros H. apply top_ok. pose proof top_checked as Hc. rewrite forallb_forall in Hc. apply Hc. by apply elem_of_list_In. Qed.

(** ** The pipelines, symbolically *)

Definition sind (it : bool) : list piece := if it then [K tab] else [V 5].
Definition scommon (sq it : bool) (s : list piece) : option (list piece) :=
  match ssubsts FF BB s [(⌜"?::testing"⌝, V 0 :: ks ⌜"::testing"⌝);
                         (using_line, if sq then [] else ks (using_line ++ [nl; nl; tab]));
                         (⌜"?forename"⌝, [V 1]); (⌜"?surname"⌝, [V 2])] with
  | Some s' => suntab FF s' (sind it)
  | None => None
  end.
Definition stable_common (sq it : bool) : list (text * list piece) :=
  [(⌜"?::testing"⌝, V 0 :: ks ⌜"::testing"⌝);
   (using_line, if sq then [] else ks (using_line ++ [nl; nl]) ++ sind it);
   (⌜"?forename"⌝, [V 1]); (⌜"?surname"⌝, [V 2]); ([tab], sind it)].

(** What holds of the unknowns [u] given the answers to the questions: is the project sequoia, are tabs used? *)
Record answers (u : unknowns) (sq it : bool) : Prop := {
  a_fine : fine u;
  a_sq : bool_decide (project_namespace (u_set u) = ⌜"sequoia"⌝) = sq;
  a_it : code_indent (u_set u) = denote (rho u) (sind it) }.

Lemma scommon_ok u sq it s o : answers u sq it -> scommon sq it s = Some o -> common (u_set u) (denote (rho u) s) = Ok (denote (rho u) o).
Proof.
  intros [Hf Hs Hi]. unfold scommon, common. destruct (ssubsts _ _ s _) as [s'|] eqn:E; [|done]. intros Ho.
  apply (ssubsts_ok FF BB (rho u) (HFF u Hf) (HBB u Hf)) in E. cbn [map fst snd] in E.
  apply (suntab_ok FF BB (rho u) (HFF u Hf) (HBB u Hf)) in Ho. rewrite Hi, Hs.
  replace (denote (rho u) (if sq then [] else ks (using_line ++ [nl; nl; tab]))) with (if sq then [] else using_line ++ [nl; nl; tab]) in E
    by (destruct sq; [done|]; by rewrite denote_ks).
  replace (denote (rho u) (V 0 :: ks ⌜"::testing"⌝)) with (project_namespace (u_set u) ++ ⌜"::testing"⌝) in E by (cbn [denote meant]; by rewrite denote_ks).
  cbn [denote meant] in E. rewrite !app_nil_r in E. unfold rho at 2 3 in E. cbn [nth] in E. rewrite E. cbn [rbind]. done.
Qed.

Lemma dtable_common u sq it : answers u sq it -> dtable (rho u) (stable_common sq it) = common_table (u_set u).
Proof.
  intros [Hf Hs Hi]. unfold dtable, stable_common, common_table. cbn [map fst snd]. rewrite <- Hi, Hs.
  repeat f_equal; try (cbn [denote meant]; by rewrite ?denote_ks, ?app_nil_r).
  destruct sq; [done|]. rewrite denote_app, denote_ks, <- Hi. by rewrite <- (assoc_L (++)).
Qed.

Lemma camel_kind sc k : camel_case sc (kind_name k) [] = Ok (kind_camel k).
Proof. by destruct sc, k; vm_compute. Qed.

(** A file all the text of which is [sline] and the filled-in body *)
Definition agrees (pipe : list piece -> option (list piece)) (table : list (text * list piece)) (rest rest' : text) : bool :=
  match pipe (sline ++ ks rest), sinst FF BB table (ks rest') with
  | Some s, Some t => bool_decide (s = sline ++ t)
  | _, _ => false
  end.
Lemma agrees_ok pipe table rest rest' u : fine u -> agrees pipe table rest rest' = true ->
  exists s, pipe (sline ++ ks rest) = Some s /\
    denote (rho u) s = with_copyright (u_year u) (u_holder u) (instantiate (dtable (rho u) table) rest').
Proof.
  intros Hf. unfold agrees. destruct (pipe _) as [s|]; [|done]. destruct (sinst FF BB table (ks rest')) as [t|] eqn:E; [|done].
  intros H%bool_decide_eq_true. exists s. split; [done|]. rewrite H, denote_app, denote_sline.
  apply (sinst_ok FF BB (rho u) (HFF u Hf) (HBB u Hf)) in E. rewrite denote_ks in E. rewrite <- E. symmetry. apply with_copyright_app.
Qed.
Lemma denote_file u rest : denote (rho u) (sline ++ ks rest) = with_copyright (u_year u) (u_holder u) rest.
Proof. rewrite denote_app, denote_sline, denote_ks. symmetry. apply with_copyright_app. Qed.

(** *** Behavioural tests *)

Definition sbehavioural (k : kind) (sq it : bool) (s : list piece) : option (list piece) :=
  match scommon sq it s with
  | Some s1 => ssubsts FF BB s1 [(⌜"?Behavioural"⌝, [V 3]); (⌜"?Test"⌝, ks (kind_camel k ++ ⌜"Test"⌝)); (⌜"?Header.hpp"⌝, [V 4]); (⌜"?"⌝, ks (kind_name k))]
  | None => None
  end.
Definition stable_behavioural (k : kind) (sq it : bool) : list (text * list piece) :=
  stable_common sq it ++ [(⌜"?Behavioural"⌝, [V 3]); (⌜"?Test"⌝, ks (kind_camel k ++ ⌜"Test"⌝)); (⌜"?Header.hpp"⌝, [V 4]); (⌜"?"⌝, ks (kind_name k))].

Definition behavioural_templates : list text :=
  [my_behavioural_test_hpp; my_behavioural_test_cpp; my_behavioural_diagnostics_hpp; my_behavioural_diagnostics_cpp].
Definition flags : list bool := [true; false].
Definition behavioural_check (l : text) (k : kind) (sq it : bool) : bool :=
  agrees (sbehavioural k sq it) (stable_behavioural k sq it) (body l) (body l).
Definition for_all (check : text -> kind -> bool -> bool -> bool) (ls : list text) (kinds : list kind) : bool :=
  forallb (fun l => forallb (fun k => forallb (fun sq => forallb (check l k sq) flags) flags) kinds) ls.
Lemma flag_in (b : bool) : In b flags.
Proof. destruct b; [by left|by right; left]. Qed.
Lemma for_all_ok check ls kinds : for_all check ls kinds = true -> forall l k sq it, l ∈ ls -> k ∈ kinds -> check l k sq it = true.
Proof.
  unfold for_all. intros H l k sq it Hl Hk. rewrite forallb_forall in H. specialize (H l (proj1 (elem_of_list_In _ _) Hl)).
  rewrite forallb_forall in H. specialize (H k (proj1 (elem_of_list_In _ _) Hk)). rewrite forallb_forall in H. specialize (H sq (flag_in sq)).
  rewrite forallb_forall in H. exact (H it (flag_in it)).
Qed.
Lemma behavioural_checked : for_all behavioural_check behavioural_templates [Free; Perf] = true.
Proof. vm_compute. reflexivity. Qed.

(** The unknowns of a setting. *)
Definition settle (o : setting) (year h data qn args prediction ns : text) : unknowns :=
  Unknowns o (if decide (code_indent o = [tab]) then [] else code_indent o) year h data qn args prediction ns.
Lemma settled o year h data qn args prediction ns :
  ordinary o -> year_text year -> holder h -> lacks (⌜"?;"⌝ ++ [tab]) data -> lacks ⌜"?"⌝ qn -> lacks (⌜"?;"⌝ ++ [tab]) args -> word prediction ->
  lacks (⌜"?<"⌝ ++ [tab; nl]) ns ->
  exists sq it, answers (settle o year h data qn args prediction ns) sq it.
Proof.
  intros (H1 & H2 & H3 & H4 & H5 & H6) Hy Hh Hd Hq Ha Hp Hn. eexists _, (bool_decide (code_indent o = [tab])). constructor; [|reflexivity|].
  - constructor; try done. unfold settle. cbn [u_indent]. destruct H6 as [-> |H6]; [by rewrite decide_True|].
    by destruct (decide (code_indent o = [tab])).
  - unfold settle. cbn [u_set]. destruct (decide (code_indent o = [tab])) as [E|E].
    + rewrite bool_decide_eq_true_2 by done. by rewrite E.
    + rewrite bool_decide_eq_false_2 by done. cbn [sind denote meant]. rewrite app_nil_r. unfold rho. cbn [nth u_indent]. done.
Qed.
Lemma lacks_nil bad : lacks bad [].
Proof. by apply Forall_nil. Qed.
Lemma word_nil : word [].
Proof. by apply Forall_nil. Qed.

Lemma substs_step u rs s o : fine u -> ssubsts FF BB s rs = Some o ->
  substs (denote (rho u) s) (map (fun r => (fst r, denote (rho u) (snd r))) rs) = Ok (denote (rho u) o).
Proof. intros Hf. exact (ssubsts_ok FF BB (rho u) (HFF u Hf) (HBB u Hf) rs s o). Qed.

Lemma sbehavioural_ok sc u k sq it s o : answers u sq it -> test_type (u_set u) = kind_name k -> sbehavioural k sq it s = Some o ->
  behavioural_text sc (u_set u) (denote (rho u) s) = Ok (denote (rho u) o).
Proof.
  intros Ha Ht. unfold sbehavioural, behavioural_text. destruct (scommon sq it s) as [s1|] eqn:E; [|done]. intros Ho.
  rewrite (scommon_ok u sq it s s1 Ha E). cbn [rbind]. rewrite Ht, camel_kind. cbn [rbind].
  apply (substs_step u) in Ho; [|apply Ha]. cbn [map fst snd] in Ho. rewrite !denote_ks in Ho. cbn [denote meant] in Ho. rewrite !app_nil_r in Ho.
  exact Ho.
Qed.
Lemma dtable_behavioural u k sq it : answers u sq it -> dtable (rho u) (stable_behavioural k sq it) = behavioural_table k (u_set u).
Proof.
  intros Ha. unfold stable_behavioural, behavioural_table. rewrite <- (dtable_common u sq it Ha). unfold dtable. rewrite map_app. f_equal.
  cbn [map fst snd]. rewrite !denote_ks. cbn [denote meant]. rewrite !app_nil_r. done.
Qed.

Theorem behavioural_file sc year h o k l :
  ordinary o -> year_text year -> holder h -> test_type o = kind_name k -> (k = Free \/ k = Perf) -> l ∈ behavioural_templates ->
  file_text year h (behavioural_text sc o) l = Ok (with_copyright year h (instantiate (behavioural_table k o) (body l))).
Proof.
  intros Ho Hy Hh Ht Hk Hl.
  destruct (settled o year h [] [] [] [] [] Ho Hy Hh (lacks_nil _) (lacks_nil _) (lacks_nil _) word_nil (lacks_nil _)) as (sq & it & Ha).
  set (u := settle o year h [] [] [] [] []) in *.
  assert (k ∈ [Free; Perf]) as Hin by (rewrite !elem_of_cons; destruct Hk as [-> | ->]; auto).
  pose proof (for_all_ok _ _ _ behavioural_checked l k sq it Hl Hin) as H. unfold behavioural_check in H.
  destruct (agrees_ok _ _ _ _ u (a_fine u _ _ Ha) H) as (s & Hs & E).
  unfold file_text. rewrite top_copyright.
  - cbn [rbind]. change (with_copyright year h (body l)) with (with_copyright (u_year u) (u_holder u) (body l)). rewrite <- denote_file.
    change o with (u_set u) at 1. rewrite (sbehavioural_ok sc u k sq it _ s Ha Ht Hs), E. by rewrite (dtable_behavioural u k sq it Ha).
  - clear -Hl. unfold behavioural_templates, templates in *. rewrite !elem_of_cons in *. rewrite elem_of_nil in Hl. tauto.
Qed.

Lemma untab_step u s it o : fine u -> suntab FF s (sind it) = Some o -> untab (denote (rho u) s) (denote (rho u) (sind it)) = Ok (denote (rho u) o).
Proof. intros Hf. exact (suntab_ok FF BB (rho u) (HFF u Hf) (HBB u Hf) s (sind it) o). Qed.

(** *** Allocation tests *)

Definition move_only_alloc (k : kind) : bool := match k with MoveOnlyAllocation => true | _ => false end.
Definition sallocation (k : kind) (sq it : bool) (s : list piece) : option (list piece) :=
  match suntab FF s (sind it) with
  | None => None
  | Some s0 =>
      match scommon sq it s0 with
      | None => None
      | Some s1 =>
          match ssubsts FF BB s1 [(⌜"?Class"⌝, [V 3]); (⌜"?Allocation"⌝, ks (kind_camel k)); (⌜"?_allocation"⌝, ks (kind_name k))] with
          | None => None
          | Some s2 => if move_only_alloc k then ssubst FF BB s2 ⌜"bool PropagateCopy, "⌝ [] else Some s2
          end
      end
  end.
Definition stable_allocation (k : kind) (sq it : bool) : list (text * list piece) :=
  stable_common sq it ++ [(⌜"?Class"⌝, [V 3]); (⌜"?Allocation"⌝, ks (kind_camel k)); (⌜"?_allocation"⌝, ks (kind_name k))]
  ++ (if move_only_alloc k then [(⌜"bool PropagateCopy, "⌝, [])] else []).
Definition allocation_templates : list text := [my_class_allocation_test_hpp; my_class_allocation_test_cpp].
Definition allocation_check (l : text) (k : kind) (sq it : bool) : bool :=
  agrees (sallocation k sq it) (stable_allocation k sq it) (body l) (body l).
Lemma allocation_checked : for_all allocation_check allocation_templates [RegularAllocation; MoveOnlyAllocation] = true.
Proof. vm_compute. reflexivity. Qed.

Lemma sallocation_ok sc u k sq it s o : answers u sq it -> test_type (u_set u) = kind_name k -> sallocation k sq it s = Some o ->
  allocation_text sc (u_set u) (denote (rho u) s) = Ok (denote (rho u) o).
Proof.
  intros Ha Ht. unfold sallocation, allocation_text. destruct (suntab FF s (sind it)) as [s0|] eqn:E0; [|done].
  destruct (scommon sq it s0) as [s1|] eqn:E1; [|done]. destruct (ssubsts _ _ s1 _) as [s2|] eqn:E2; [|done]. intros Ho.
  rewrite (a_it u sq it Ha), (untab_step u s it s0 (a_fine _ _ _ Ha) E0). cbn [rbind].
  rewrite (scommon_ok u sq it s0 s1 Ha E1). cbn [rbind]. rewrite Ht, camel_kind. cbn [rbind].
  apply (substs_step u) in E2; [|apply Ha]. cbn [map fst snd] in E2. rewrite !denote_ks in E2. cbn [denote meant] in E2. rewrite !app_nil_r in E2.
  change (rho u 3) with (camel (u_set u)) in E2. rewrite E2. cbn [rbind].
  replace (bool_decide (kind_name k = ⌜"move_only_allocation"⌝)) with (move_only_alloc k) by by destruct k.
  destruct (move_only_alloc k); [|by injection Ho as ->].
  exact (ssubst_ok FF BB (rho u) (HFF u (a_fine _ _ _ Ha)) (HBB u (a_fine _ _ _ Ha)) _ _ _ _ Ho).
Qed.
Lemma dtable_allocation u k sq it : answers u sq it -> dtable (rho u) (stable_allocation k sq it) = allocation_table k (u_set u).
Proof.
  intros Ha. unfold stable_allocation, allocation_table. rewrite <- (dtable_common u sq it Ha). unfold dtable. rewrite !map_app. f_equal. f_equal.
  - cbn [map fst snd]. rewrite !denote_ks. cbn [denote meant]. rewrite !app_nil_r. done.
  - by destruct k.
Qed.

Theorem allocation_file sc year h o k l :
  ordinary o -> year_text year -> holder h -> test_type o = kind_name k -> (k = RegularAllocation \/ k = MoveOnlyAllocation) -> l ∈ allocation_templates ->
  file_text year h (allocation_text sc o) l = Ok (with_copyright year h (instantiate (allocation_table k o) (body l))).
Proof.
  intros Ho Hy Hh Ht Hk Hl.
  destruct (settled o year h [] [] [] [] [] Ho Hy Hh (lacks_nil _) (lacks_nil _) (lacks_nil _) word_nil (lacks_nil _)) as (sq & it & Ha).
  set (u := settle o year h [] [] [] [] []) in *.
  assert (k ∈ [RegularAllocation; MoveOnlyAllocation]) as Hin by (rewrite !elem_of_cons; destruct Hk as [-> | ->]; auto).
  pose proof (for_all_ok _ _ _ allocation_checked l k sq it Hl Hin) as H. unfold allocation_check in H.
  destruct (agrees_ok _ _ _ _ u (a_fine u _ _ Ha) H) as (s & Hs & E).
  unfold file_text. rewrite top_copyright.
  - cbn [rbind]. change (with_copyright year h (body l)) with (with_copyright (u_year u) (u_holder u) (body l)). rewrite <- denote_file.
    change o with (u_set u) at 1. rewrite (sallocation_ok sc u k sq it _ s Ha Ht Hs), E. by rewrite (dtable_allocation u k sq it Ha).
  - clear -Hl. unfold allocation_templates, templates in *. rewrite !elem_of_cons in *. rewrite elem_of_nil in Hl. tauto.
Qed.

(** *** Tests of semantics *)

Definition is_regular (k : kind) : bool := match k with Regular => true | _ => false end.
Definition ssemantics (k : kind) (eq tm sq it : bool) (s : list piece) : option (list piece) :=
  match schoose FF BB (is_regular k) s with
  | None => None
  | Some s1 =>
      match (if eq then ssubsts FF BB s1 [(⌜"?args"⌝, [V 12]); (⌜"?predictions"⌝, [V 13])] else sdrop_tester FF BB s1) with
      | None => None
      | Some s2 =>
          match (if tm then ssubst FF BB s2 ⌜"<?> "⌝ ([V 10] ++ [K nl] ++ sind it) else ssubst FF BB s2 ⌜"<?>"⌝ (ks ⌜"<>"⌝)) with
          | None => None
          | Some s3 =>
              match scommon sq it s3 with
              | None => None
              | Some s4 => ssubsts FF BB s4 [(⌜"::?_class"⌝, [V 11]); (⌜"?Class.hpp"⌝, [V 4]); (⌜"?Class"⌝, [V 3]);
                                             (⌜"?Test"⌝, ks (kind_camel k ++ ⌜"Test"⌝)); (⌜"?"⌝, ks (kind_name k))]
              end
          end
      end
  end.
Definition stable_semantics (k : kind) (tm sq it : bool) : list (text * list piece) :=
  [(⌜"?args"⌝, [V 12]); (⌜"?predictions"⌝, [V 13])]
  ++ (if tm then [(⌜"<?> "⌝, [V 10] ++ [K nl] ++ sind it)] else [(⌜"<?>"⌝, ks ⌜"<>"⌝)])
  ++ stable_common sq it
  ++ [(⌜"::?_class"⌝, [V 11]); (⌜"?Class.hpp"⌝, [V 4]); (⌜"?Class"⌝, [V 3]);
      (⌜"?Test"⌝, ks (kind_camel k ++ ⌜"Test"⌝)); (⌜"?"⌝, ks (kind_name k))].
Definition semantics_templates : list text :=
  [my_class_testing_utilities_hpp; my_class_testing_diagnostics_hpp; my_class_testing_diagnostics_cpp; my_class_test_hpp; my_class_test_cpp].

(** What is kept of a template. *)
Definition kept1 (k : kind) (l : text) : text := choose_part (is_regular k) (body l).
Definition kept2 (k : kind) (eq : bool) (l : text) : text :=
  if eq then kept1 k l else match equivalence_part [] (kept1 k l) with Ok x => x | _ => [] end.
Definition parts (l : text) : option (text * text * text * text) :=
  match find_first ⌜"$Regular"⌝ l, find_first ⌜"$Move"⌝ l, find_first (⌜"$"⌝ ++ [nl]) l with
  | Some i, Some j, Some m => Some (take i l, take (j - i - 8) (drop (i + 8) l), take (m - j - 5) (drop (j + 5) l), drop (m + 2) l)
  | _, _, _ => None
  end.
Definition chosen_check (k : kind) (l out : text) : bool :=
  bool_decide ("$"%char ∉ l) && bool_decide (out = l) ||
  match parts l with
  | Some (a, b, c, d) =>
      bool_decide (l = a ++ ⌜"$Regular"⌝ ++ b ++ ⌜"$Move"⌝ ++ c ++ ⌜"$"⌝ ++ [nl] ++ d)
      && bool_decide ("$"%char ∉ a ++ b ++ c ++ d) && bool_decide (out = a ++ (match k with Regular => b | _ => c end) ++ d)
  | None => false
  end.
Definition absent (P l : text) : bool := match find_first P l with None => true | Some _ => false end.
Definition tested_check (eq : bool) (l out : text) : bool :=
  (eq || absent ⌜"template<?>"⌝ l) && bool_decide (out = l) ||
  negb eq && match find_first ⌜"template<?>"⌝ l, Edit.Model.find_last ⌜"};"⌝ l with
         | Some i, Some j =>
             let a := take i l in let b := take (j - i - 11) (drop (i + 11) l) in let d := drop (j + 2) l in
             bool_decide (l = a ++ ⌜"template<?>"⌝ ++ b ++ ⌜"};"⌝ ++ d) && absent ⌜"template<?>"⌝ (a ++ b ++ d) && absent ⌜"};"⌝ d
             && bool_decide (out = a ++ d)
         | _, _ => false
         end.
Lemma absent_ok P l : absent P l = true -> ~ occurs P l.
Proof. unfold absent. destruct (find_first P l) eqn:E; [done|]. intros _. by apply find_first_None. Qed.
Lemma chosen_ok k l out : chosen_check k l out = true -> chosen k l out.
Proof.
  unfold chosen_check. intros [H|H]%orb_prop.
  - apply andb_prop in H as [H1%bool_decide_eq_true H2%bool_decide_eq_true]. by left.
  - right. destruct (parts l) as [[[[a b] c] d]|]; [|done]. apply andb_prop in H as [[H1%bool_decide_eq_true H2%bool_decide_eq_true]%andb_prop H3%bool_decide_eq_true].
    by exists a, b, c, d.
Qed.
Lemma tested_ok eq l out : tested_check eq l out = true -> tested eq l out.
Proof.
  unfold tested_check. intros [H|H]%orb_prop.
  - apply andb_prop in H as [H1 H2%bool_decide_eq_true]. left. split; [|done]. apply orb_prop in H1 as [H1|H1]; [by left|right; by apply absent_ok].
  - apply andb_prop in H as [H0%negb_true_iff H]. right. split; [done|].
    destruct (find_first _ l) as [i|]; [|done]. destruct (Edit.Model.find_last _ l) as [j|]; [|done].
    apply andb_prop in H as [[[H1%bool_decide_eq_true H2%absent_ok]%andb_prop H3%absent_ok]%andb_prop H4%bool_decide_eq_true].
    eexists _, _, _. split; [exact H1|]. done.
Qed.

Definition semantics_check (eq tm : bool) (l : text) (k : kind) (sq it : bool) : bool :=
  chosen_check k (body l) (kept1 k l) && tested_check eq (kept1 k l) (kept2 k eq l)
  && agrees (ssemantics k eq tm sq it) (stable_semantics k tm sq it) (body l) (kept2 k eq l).
Lemma semantics_checked eq tm : for_all (semantics_check eq tm) semantics_templates [Regular; MoveOnly] = true.
Proof. destruct eq, tm; vm_compute; reflexivity. Qed.
