(** The texts of new projects, by computation with unknowns. *)
From Coq Require Import Ascii String.
From stdpp Require Import list gmap strings.
From Verif.Base Require Import Outcome ListLemmas.
From Verif.Text Require Import Model Spec Proofs ProofsIndent.
From Verif.Materials Require Import Model Spec.
From Verif.Creator Require Import Model Spec Symbolic ProofsFiles ProofsTexts.
From Verif.Init Require Import Model ModelTemplate Spec ProofsAll ProofsWitness SpecMain.
Local Open Scope res_scope.
Local Notation "⌜ s ⌝" := (list_ascii_of_string s%string).
Local Notation length := List.length.

(** [replace] *)
Definition sreplace_first {F B} (s : list piece) (P : text) (T : list piece) : option (list piece) :=
  match sfirst F B P s with Yes (b, a) => Some (b ++ T ++ a) | No => Some s | Unknown => None end.
Lemma sreplace_first_ok F B ρ (HF : forall v c, c ∈ F v -> c ∉ ρ v) (HB : forall v P, P ∈ B v -> ~ occurs P (ρ v)) s P T o : P <> [] ->
  sreplace_first (F := F) (B := B) s P T = Some o -> replace (denote ρ s) P (denote ρ T) = denote ρ o.
Proof.
  intros Hne. unfold sreplace_first. pose proof (sfirst_ok F B ρ HF HB P Hne s) as H. destruct (sfirst F B P s) as [[b a]| |]; [| |done].
  - intros [= <-]. destruct H as [E H]. unfold replace, find_from. rewrite decide_True by lia. rewrite drop_0, (proj2 (find_first_Some _ _ _) H). cbn.
    rewrite E, !denote_app. exact (splice_app (denote ρ b) P (denote ρ a) (denote ρ T)).
  - intros [= <-]. unfold replace, find_from. rewrite decide_True by lia. by rewrite drop_0, (proj2 (find_first_None _ _) H).
Qed.

(** ** The main function *)

Definition bs : ascii := "\"%char.
Definition MF (v : nat) : text :=
  match v with
  | 0 | 3 => ["O"%char; "m"%char; bs; tab]
  | 1 => [tab; bs]
  | 2 => author ++ ⌜"myProject"⌝ ++ [bs; tab]
  | 4 => ["O"%char; "m"%char; bs]
  | 5 => [bs]
  | _ => []
  end.
Definition MB (v : nat) : list text := match v with 1 => [author; ⌜"myProject"⌝] | _ => [] end.

Definition sheader (hold : list piece) : list piece :=
  ks (replicate 68 "/"%char ++ [nl] ++ ⌜"//"⌝) ++ [V 0] ++ ks ⌜"Copyright "⌝ ++ hold ++ ks ⌜" "⌝ ++ [V 2] ++ ks ⌜"."⌝ ++ [V 3] ++ ks ⌜"//"⌝.

Definition smain (hold s : list piece) : option (list piece) :=
  match suntab MF s [V 4] with
  | None => None
  | Some s =>
    match sreplace_first (F := MF) (B := MB) s author hold with
    | None => None
    | Some s =>
      match ssubst MF MB s ⌜"myProject"⌝ [V 5] with
      | None => None
      | Some s => sreplace_first (F := MF) (B := MB) s [bs; "t"%char] [V 6]
      end
    end
  end.

Definition smain_table (hold : list piece) : list (text * list piece) := [(author, hold); (⌜"myProject"⌝, [V 5]); (⌜"\t"⌝, [V 6]); ([tab], [V 4])].

Definition agreed (a b : option (list piece)) : bool := match a, b with Some a, Some b => bool_decide (a = b) | _, _ => false end.
Definition main_checked (hold : list piece) : bool :=
  agreed (smain hold (sheader hold ++ ks (body shipped_main))) ((fun o => sheader hold ++ o) <$> sinst MF MB (smain_table hold) (ks (body shipped_main))).
Lemma main_checked_unknown : main_checked [V 1] = true.
Proof. vm_compute. reflexivity. Qed.
Lemma main_checked_author : main_checked (ks author) = true.
Proof. vm_compute. reflexivity. Qed.

Lemma shipped_top : top_check shipped_main = true.
Proof. vm_compute. reflexivity. Qed.

Section main.
  Context (year h ind name : text).
  Definition space : nat := 64 - length (headline year h).
  Definition MR (v : nat) : text :=
    match v with
    | 0 => replicate (space - space / 2) blank
    | 1 => if decide (h = author) then [] else h
    | 2 => year
    | 3 => replicate (space / 2) blank
    | 4 => ind
    | 5 => uncapitalize name
    | 6 => literal ind
    | _ => []
    end.

  Lemma escaped_literal : escaped_tabs ind = literal ind.
  Proof using. unfold escaped_tabs. induction ind as [|c l IH]; cbn [map List.concat literal]; [done|]. by rewrite IH. Qed.

  Hypothesis Hy : year_text year.
  Hypothesis Hi : plain_indent ind.
  Hypothesis Hn : Forall name_char name.

  Lemma in_replicate n (c d : ascii) : c ∈ replicate n d -> c = d.
  Proof using. intros H. by apply elem_of_replicate in H as [-> _]. Qed.

  Lemma lower_no_bs : bs ∉ uncapitalize name.
  Proof using Hn.
    destruct name as [|c l]; [by intros ?%elem_of_nil|]. apply Forall_cons in Hn as [Hc Hl]. cbn [uncapitalize]. rewrite elem_of_cons. intros [E|H].
    - unfold to_lower in E. destruct (upper_code c) eqn:Eu.
      + apply (f_equal nat_of_ascii) in E. revert E Eu. unfold upper_code, code. destruct c as [[] [] [] [] [] [] [] []]; vm_compute; discriminate.
      + subst c. destruct Hc as [Hc|[?|?]]; [unfold letter_or_digit, code, bs in Hc; vm_compute in Hc; lia|done|done].
    - rewrite Forall_forall in Hl. apply Hl in H. destruct H as [H|[?|?]]; [unfold letter_or_digit, code, bs in H; vm_compute in H; lia|done|done].
  Qed.

  Lemma MF_ok (Hh : tab ∉ h /\ bs ∉ h) v c : c ∈ MF v -> c ∉ MR v.
  Proof using Hy Hi Hn.
    destruct Hh as [Hh1 Hh2].
    assert (forall n, c ∈ ["O"%char; "m"%char; bs; tab] -> c ∉ replicate n blank) as HS.
    { intros n Hc H. apply in_replicate in H. subst c. revert Hc. apply (bool_decide_unpack _). vm_compute. exact I. }
    destruct v as [|[|[|[|[|[|v]]]]]]; cbn [MF MR]; intros Hc.
    - by apply HS.
    - destruct (decide (h = author)); [by intros ?%elem_of_nil|]. rewrite !elem_of_cons, elem_of_nil in Hc. destruct Hc as [->|[->|[]]]; done.
    - intros H. unfold year_text in Hy. rewrite Forall_forall in Hy. apply Hy in H.
      assert (Forall (fun c => digit c = false) (author ++ ⌜"myProject"⌝ ++ [bs; tab])) as HF.
      { apply (bool_decide_unpack _). vm_compute. exact I. }
      rewrite Forall_forall in HF. rewrite (HF c Hc) in H. discriminate H.
    - by apply HS.
    - intros H. unfold plain_indent in Hi. rewrite Forall_forall in Hi. apply Hi in H. rewrite !elem_of_cons, elem_of_nil in Hc.
      destruct H as [-> | ->]; destruct Hc as [Hc|[Hc|[Hc|[]]]]; discriminate Hc.
    - apply elem_of_list_singleton in Hc as ->. exact lower_no_bs.
    - by apply elem_of_nil in Hc.
  Qed.

  Lemma header_meaning hold : denote MR hold = h -> denote MR (sheader hold) = replicate 68 "/"%char ++ [nl] ++ ⌜"//"⌝ ++ centred 64 (headline year h) ++ ⌜"//"⌝.
  Proof using.
    intros E. unfold sheader. rewrite !denote_app, !denote_ks, E. cbn [denote meant MR]. unfold centred. cbv zeta. fold space. unfold headline.
    rewrite !app_nil_r. rewrite <-!app_assoc. reflexivity.
  Qed.

  Lemma main_by hold : denote MR hold = h -> (forall v c, c ∈ MF v -> c ∉ MR v) -> (forall v P, P ∈ MB v -> ~ occurs P (MR v)) -> main_checked hold = true ->
    main_text year h ind name shipped_main = Ok (with_copyright year h (instantiate (main_table h ind (uncapitalize name)) (body shipped_main))).
  Proof using.
    intros Eh HF HB Hc. unfold main_checked, agreed in Hc.
    destruct (smain hold (sheader hold ++ ks (body shipped_main))) as [o|] eqn:E1; [|discriminate Hc].
    destruct (sinst MF MB (smain_table hold) (ks (body shipped_main))) as [o'|] eqn:E2; [|discriminate Hc]. cbn [fmap option_fmap option_map] in Hc.
    apply bool_decide_eq_true in Hc. apply (sinst_ok MF MB MR HF HB) in E2. rewrite denote_ks in E2.
    assert (dtable MR (smain_table hold) = main_table h ind (uncapitalize name)) as Et.
    { unfold dtable, smain_table, main_table. cbn [map fst snd]. rewrite Eh. cbn [denote meant MR]. by rewrite !app_nil_r. }
    rewrite Et in E2. clear Et. unfold main_text. rewrite (top_ok year h shipped_main shipped_top). cbn [rbind]. rewrite E2.
    assert (denote MR (sheader hold ++ ks (body shipped_main)) = with_copyright year h (body shipped_main)) as E0.
    { rewrite denote_app, header_meaning by exact Eh. rewrite denote_ks. unfold with_copyright. by rewrite <-!app_assoc. }
    rewrite <-E0. clear E0 E2. assert (denote MR o = with_copyright year h (denote MR o')) as E3.
    { rewrite Hc, denote_app, header_meaning by exact Eh. unfold with_copyright. by rewrite <-!app_assoc. }
    rewrite <-E3. clear E3 Hc o'. unfold smain in E1. destruct (suntab MF _ [V 4]) as [s1|] eqn:U1; [|discriminate E1].
    destruct (sreplace_first s1 author hold) as [s2|] eqn:U2; [|discriminate E1]. destruct (ssubst MF MB s2 ⌜"myProject"⌝ [V 5]) as [s3|] eqn:U3; [|discriminate E1].
    apply (suntab_ok MF MB MR HF HB) in U1. cbn [denote meant MR] in U1. rewrite app_nil_r in U1. rewrite U1. cbn [rbind].
    apply (sreplace_first_ok MF MB MR HF HB) in U2; [|discriminate]. rewrite Eh in U2. change ⌜"Oliver J. Rosten"⌝ with author. rewrite U2.
    apply (ssubst_ok MF MB MR HF HB) in U3. cbn [denote meant MR] in U3. rewrite app_nil_r in U3. rewrite U3. cbn [rbind].
    apply (sreplace_first_ok MF MB MR HF HB) in E1; [|discriminate]. cbn [denote meant MR] in E1. rewrite app_nil_r in E1. rewrite escaped_literal.
    change ⌜"\t"⌝ with [bs; "t"%char]. by rewrite E1.
  Qed.

  Lemma unknowns : plain_holder h ->
    (denote MR (ks author) = h /\ (forall v c, c ∈ MF v -> c ∉ MR v) /\ (forall v P, P ∈ MB v -> ~ occurs P (MR v))) \/
    (denote MR [V 1] = h /\ (forall v c, c ∈ MF v -> c ∉ MR v) /\ (forall v P, P ∈ MB v -> ~ occurs P (MR v))).
  Proof using Hy Hi Hn.
    intros [Eh|(H1&H2&H3&H4)]; [left|right]; repeat split.
    - by rewrite denote_ks, Eh.
    - apply MF_ok. rewrite Eh. split; apply (bool_decide_unpack _); vm_compute; exact I.
    - intros [|[|v]] P HP; cbn [MB MR] in *; [by apply elem_of_nil in HP| |by apply elem_of_nil in HP].
      rewrite decide_True by exact Eh. rewrite !elem_of_cons, elem_of_nil in HP. intros (i&x&y&E&_). symmetry in E. apply app_eq_nil in E as [_ E].
      destruct HP as [->|[->|[]]]; discriminate E.
    - cbn [denote meant MR]. rewrite decide_False; [apply app_nil_r|]. intros E. apply H3. exists 0, [], []. by rewrite E.
    - by apply MF_ok.
    - intros [|[|v]] P HP; cbn [MB MR] in *; [by apply elem_of_nil in HP| |by apply elem_of_nil in HP].
      rewrite decide_False; [|intros E; apply H3; exists 0, [], []; by rewrite E].
      rewrite !elem_of_cons, elem_of_nil in HP. destruct HP as [->|[->|[]]]; done.
  Qed.

  Theorem main_adapted : plain_holder h ->
    main_text year h ind name shipped_main = Ok (with_copyright year h (instantiate (main_table h ind (uncapitalize name)) (body shipped_main))).
  Proof using Hy Hi Hn.
    intros [(Eh&HF&HB)|(Eh&HF&HB)]%unknowns.
    - exact (main_by (ks author) Eh HF HB main_checked_author).
    - exact (main_by [V 1] Eh HF HB main_checked_unknown).
  Qed.
End main.

(** ** The files for CMake *)

Definition CF (v : nat) : text := [].
Definition CB (v : nat) : list text := match v with 0 => [⌜"myProject"⌝] | _ => [] end.
Definition scmake (s : list piece) : option (list piece) :=
  match ssubst CF CB s ⌜"MyProject"⌝ [V 0] with None => None | Some s => ssubst CF CB s ⌜"myProject"⌝ [V 1] end.
Definition scmake_table : list (text * list piece) := [(⌜"MyProject"⌝, [V 0]); (⌜"myProject"⌝, [V 1])].
Definition cmake_checked (l : text) : bool := agreed (scmake (ks l)) (sinst CF CB scmake_table (ks l)).
Lemma cmake_checked_main : cmake_checked shipped_cmake = true.
Proof. vm_compute. reflexivity. Qed.
Lemma cmake_checked_library : cmake_checked shipped_library = true.
Proof. vm_compute. reflexivity. Qed.

Definition CR (name : text) (v : nat) : text := match v with 0 => name | 1 => uncapitalize name | _ => [] end.

Lemma no_blank name : Forall name_char name -> subst name ⌜" "⌝ ⌜"_"⌝ = Ok name.
Proof.
  intros Hn. unfold subst. apply replace_all_unique; [discriminate|lia|]. constructor. intros (i&x&y&E&_). subst name.
  apply Forall_app in Hn as [_ Hn]. apply Forall_app in Hn as [Hn _]. apply Forall_cons in Hn as [[H|[H|H]] _]; [|discriminate H|discriminate H].
  unfold letter_or_digit, code in H. vm_compute in H. lia.
Qed.

Lemma cmake_by name l : plain_name name -> cmake_checked l = true -> set_proj_name l name = Ok (instantiate (cmake_table name (uncapitalize name)) l).
Proof.
  intros [Hn Ho] Hc. unfold cmake_checked, agreed in Hc. unfold set_proj_name. rewrite (no_blank name Hn). cbn [rbind].
  destruct (scmake (ks l)) as [o|] eqn:E1; [|discriminate Hc]. destruct (sinst CF CB scmake_table (ks l)) as [o'|] eqn:E2; [|discriminate Hc].
  apply bool_decide_eq_true in Hc. subst o'.
  assert (forall v c, c ∈ CF v -> c ∉ CR name v) as HF by (intros v c H; by apply elem_of_nil in H).
  assert (forall v P, P ∈ CB v -> ~ occurs P (CR name v)) as HB.
  { intros [|v] P HP; cbn [CB CR] in *; [|by apply elem_of_nil in HP]. apply elem_of_list_singleton in HP as ->. exact Ho. }
  apply (sinst_ok CF CB (CR name) HF HB) in E2. rewrite denote_ks in E2. unfold dtable, scmake_table in E2. cbn [map fst snd denote meant CR] in E2. rewrite !app_nil_r in E2.
  change (instantiate (cmake_table name (uncapitalize name)) l = denote (CR name) o) in E2. rewrite E2.
  unfold scmake in E1. destruct (ssubst CF CB (ks l) ⌜"MyProject"⌝ [V 0]) as [s|] eqn:U; [|discriminate E1].
  apply (ssubst_ok CF CB (CR name) HF HB) in U. rewrite denote_ks in U. cbn [denote meant CR] in U. rewrite app_nil_r in U. rewrite U. cbn [rbind].
  apply (ssubst_ok CF CB (CR name) HF HB) in E1. cbn [denote meant CR] in E1. rewrite app_nil_r in E1. exact E1.
Qed.

(** ** What stands in the main function *)

Fixpoint has_piece (m o : list piece) : bool :=
  bool_decide (m `prefix_of` o) || match o with [] => false | _ :: o' => has_piece m o' end.
Lemma has_piece_ok ρ m o : has_piece m o = true -> occurs (denote ρ m) (denote ρ o).
Proof.
  assert (has_piece m o = true -> exists b a, o = b ++ m ++ a) as H.
  { induction o as [|p o IH]; cbn [has_piece]; rewrite orb_true_iff, bool_decide_eq_true; (intros [[a ->]|H]; [by exists [], a|]); [done|].
    destruct (IH H) as (b&a&->). by exists (p :: b), a. }
  intros (b&a&->)%H. exists (length (denote ρ b)), (denote ρ b), (denote ρ a). by rewrite !denote_app.
Qed.

Definition srunner (hold : list piece) : list piece := ks ⌜"test_runner runner{argc, argv, """⌝ ++ hold ++ ks ⌜""", """⌝ ++ [V 6] ++ ks ⌜"""};"⌝.
Definition snamespace : list piece := ks ⌜"using namespace "⌝ ++ [V 5] ++ ks ⌜"::testing;"⌝.
Definition found (m : list piece) (o : option (list piece)) : bool := match o with Some o => has_piece m o | None => false end.
Lemma found_unknown : found (srunner [V 1]) (smain [V 1] (sheader [V 1] ++ ks (body shipped_main))) = true
  /\ found snamespace (smain [V 1] (sheader [V 1] ++ ks (body shipped_main))) = true.
Proof. split; vm_compute; reflexivity. Qed.
Lemma found_author : found (srunner (ks author)) (smain (ks author) (sheader (ks author) ++ ks (body shipped_main))) = true
  /\ found snamespace (smain (ks author) (sheader (ks author) ++ ks (body shipped_main))) = true.
Proof. split; vm_compute; reflexivity. Qed.

Lemma found_ok ρ hold m : found m (smain hold (sheader hold ++ ks (body shipped_main))) = true -> main_checked hold = true ->
  (forall v c, c ∈ MF v -> c ∉ ρ v) -> (forall v P, P ∈ MB v -> ~ occurs P (ρ v)) ->
  occurs (denote ρ m) (denote ρ (sheader hold) ++ instantiate (dtable ρ (smain_table hold)) (body shipped_main)).
Proof.
  intros Hf Hc HF HB. unfold main_checked, agreed in Hc.
  destruct (smain hold (sheader hold ++ ks (body shipped_main))) as [o|]; [|discriminate Hc].
  destruct (sinst MF MB (smain_table hold) (ks (body shipped_main))) as [o'|] eqn:E2; [|discriminate Hc]. cbn [fmap option_fmap option_map] in Hc.
  apply bool_decide_eq_true in Hc. apply (sinst_ok MF MB ρ HF HB) in E2. rewrite denote_ks in E2. rewrite E2, <-denote_app, <-Hc. cbn [found] in Hf. by apply has_piece_ok.
Qed.

Section stands.
  Context (year h ind name : text).
  Hypothesis Hy : year_text year.
  Hypothesis Hi : plain_indent ind.
  Hypothesis Hn : Forall name_char name.
  Hypothesis Hh : plain_holder h.

  Lemma stands_by hold : denote (MR year h ind name) hold = h -> (forall v c, c ∈ MF v -> c ∉ MR year h ind name v) -> (forall v P, P ∈ MB v -> ~ occurs P (MR year h ind name v)) ->
    main_checked hold = true -> (found (srunner hold) (smain hold (sheader hold ++ ks (body shipped_main))) = true
      /\ found snamespace (smain hold (sheader hold ++ ks (body shipped_main))) = true) ->
    exists out, main_text year h ind name shipped_main = Ok out /\
      occurs (⌜"test_runner runner{argc, argv, """⌝ ++ h ++ ⌜""", """⌝ ++ literal ind ++ ⌜"""};"⌝) out /\
      occurs (⌜"using namespace "⌝ ++ uncapitalize name ++ ⌜"::testing;"⌝) out.
  Proof using.
    intros Eh HF HB Hc [H1 H2]. eexists. split; [by apply (main_by year h ind name hold)|].
    pose proof (found_ok _ _ _ H1 Hc HF HB) as O1. pose proof (found_ok _ _ _ H2 Hc HF HB) as O2.
    assert (dtable (MR year h ind name) (smain_table hold) = main_table h ind (uncapitalize name)) as Et.
    { unfold dtable, smain_table, main_table. cbn [map fst snd]. rewrite Eh. cbn [denote meant MR]. by rewrite !app_nil_r. }
    rewrite Et, (header_meaning year h ind name hold Eh) in O1, O2. unfold with_copyright. rewrite <-!app_assoc in O1, O2.
    unfold srunner in O1. unfold snamespace in O2. repeat rewrite denote_app in O1. repeat rewrite denote_ks in O1. rewrite Eh in O1.
    repeat rewrite denote_app in O2. repeat rewrite denote_ks in O2. cbn [denote meant MR] in O1, O2. repeat rewrite app_nil_r in O1. repeat rewrite app_nil_r in O2.
    split; assumption.
  Qed.

  Theorem main_stands : exists out, main_text year h ind name shipped_main = Ok out /\
    occurs (⌜"test_runner runner{argc, argv, """⌝ ++ h ++ ⌜""", """⌝ ++ literal ind ++ ⌜"""};"⌝) out /\
    occurs (⌜"using namespace "⌝ ++ uncapitalize name ++ ⌜"::testing;"⌝) out.
  Proof using Hy Hi Hn Hh.
    destruct (unknowns year h ind name Hy Hi Hn Hh) as [(Eh&HF&HB)|(Eh&HF&HB)].
    - apply (stands_by (ks author) Eh HF HB main_checked_author found_author).
    - apply (stands_by [V 1] Eh HF HB main_checked_unknown found_unknown).
  Qed.
End stands.

(** ** Where the holder is not as is supposed *)
Definition others : text := ⌜"Oliver J. Rosten and others"⌝.
Definition lacking (P : text) (o : res text) : bool := match o with Ok out => bool_decide (find_first P out = None) | _ => false end.
Lemma others_lacking : lacking (⌜"argv, """⌝ ++ others) (main_text ⌜"2024"⌝ others ⌜"  "⌝ ⌜"Foo"⌝ shipped_main) = true.
Proof. vm_compute. reflexivity. Qed.
Lemma lacking_ok P o : lacking P o = true -> exists out, o = Ok out /\ ~ occurs P out.
Proof.
  destruct o as [out|e| |]; cbn [lacking]; [|discriminate..]. intros H%bool_decide_eq_true. exists out. split; [reflexivity|].
  exact (proj1 (find_first_None _ _) H).
Qed.

(** ** Projects *)
Lemma adapted_changed parent d x year : shipped parent d -> year_text year -> acceptable d x -> plain_holder (copyright x) -> plain_name (List.last (project_root x) []) ->
  changed parent d x year (adapted year x).
Proof.
  intros [S1 S2 S3 S4] Hy Ha Hh Hn. pose proof (acceptable_indent _ _ Ha) as Hi. split; cbn [adapted new_main new_cmake new_library new_ignore].
  - exists shipped_main. split; [exact S1|]. apply main_adapted; [exact Hy|exact Hi|exact (proj1 Hn)|exact Hh].
  - exists shipped_cmake. split; [exact S2|]. exact (cmake_by _ _ Hn cmake_checked_main).
  - exists shipped_library. split; [exact S3|]. exact (cmake_by _ _ Hn cmake_checked_library).
  - destruct (use_git x); [|reflexivity]. destruct (output_file x); [reflexivity|]. exists shipped_ignore. split; [exact S4|reflexivity].
Qed.

Lemma all_adapted parent year d xs : in_folders d -> shipped parent d -> year_text year ->
  Forall (fun x => acceptable d x /\ disjoint_paths parent (project_root x) /\ way_free d (project_root x) /\ complete parent d x
                   /\ plain_holder (copyright x) /\ plain_name (List.last (project_root x) [])) xs ->
  ForallOrdPairs (fun x y => disjoint_paths (project_root x) (project_root y)) xs ->
  exists d', init_projects parent year d xs = Created d' /\
    (forall x, x ∈ xs -> forall r, d' !! (project_root x ++ r) = expected parent d x (adapted year x) r).
Proof.
  intros H1 H2 H3 H4 H5. destruct (all_created parent year (adapted year) d xs H1) as (d'&E&H&_); [|exact H5|by exists d'].
  eapply Forall_impl; [exact H4|]. cbv beta. intros x (A1&A2&A3&A4&A5&A6). split; [exact A1|]. split; [exact A2|]. split; [exact A3|]. split; [exact A4|]. by apply adapted_changed.
Qed.

(** ** Cases *)
Lemma year_ok : year_text ⌜"2024"⌝.
Proof. apply (bool_decide_unpack _). vm_compute. exact I. Qed.
Lemma indent_ok : plain_indent [tab; " "%char].
Proof. apply (bool_decide_unpack _). vm_compute. exact I. Qed.
Lemma blanks_ok : plain_indent ⌜"  "⌝.
Proof. apply (bool_decide_unpack _). vm_compute. exact I. Qed.
Global Instance name_char_dec c : Decision (name_char c).
Proof. unfold name_char, letter_or_digit. apply _. Defined.
Lemma foo_ok : Forall name_char ⌜"Foo-1"⌝.
Proof. apply (bool_decide_unpack _). vm_compute. exact I. Qed.
Lemma foo_chars : Forall name_char ⌜"Foo"⌝.
Proof. apply (bool_decide_unpack _). vm_compute. exact I. Qed.
Lemma other_ok : plain_holder ⌜"A. N. Other"⌝.
Proof. right. repeat split; [apply (bool_decide_unpack _); vm_compute; exact I..|apply absent_ok; vm_compute; reflexivity|apply absent_ok; vm_compute; reflexivity]. Qed.
Lemma foo_plain : plain_name ⌜"Foo-1"⌝.
Proof. split; [exact foo_ok|]. apply absent_ok. vm_compute. reflexivity. Qed.
Lemma others_tab : tab ∉ others.
Proof. apply (bool_decide_unpack _). vm_compute. exact I. Qed.
Lemma others_bs : "\"%char ∉ others.
Proof. apply (bool_decide_unpack _). vm_compute. exact I. Qed.
Lemma start_shipped : shipped here start.
Proof. split; apply (bool_decide_unpack _); vm_compute; exact I. Qed.
Lemma foos_plain : acceptable start foos /\ disjoint_paths here (project_root foos) /\ way_free start (project_root foos) /\ complete here start foos
  /\ plain_holder (copyright foos) /\ plain_name (List.last (project_root foos) []).
Proof.
  destruct foos_ready as (H1&H2&H3&H4&_). split; [exact H1|]. split; [exact H2|]. split; [exact H3|]. split; [exact H4|]. split; [exact other_ok|].
  split; [apply (bool_decide_unpack _); vm_compute; exact I|]. apply absent_ok. vm_compute. reflexivity.
Qed.
Lemma bars_plain : acceptable start bars /\ disjoint_paths here (project_root bars) /\ way_free start (project_root bars) /\ complete here start bars
  /\ plain_holder (copyright bars) /\ plain_name (List.last (project_root bars) []).
Proof.
  destruct bars_ready as (H1&H2&H3&H4&_). split; [exact H1|]. split; [exact H2|]. split; [exact H3|]. split; [exact H4|]. split; [exact other_ok|].
  split; [apply (bool_decide_unpack _); vm_compute; exact I|]. apply absent_ok. vm_compute. reflexivity.
Qed.
