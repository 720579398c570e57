(** The commands do what is wanted. *)
From Coq Require Import Ascii String ZArith.
From stdpp Require Import list.
From Verif.Base Require Import Outcome ListLemmas.
From Verif.Text Require Import Model.
From Verif.Text Require Spec Proofs.
From Verif.CommandLine Require Import Model.
From Verif.Commands Require Import Model Spec ProofsNumbers ProofsLines.
Local Open Scope res_scope.
Local Notation "⌜ s ⌝" := (list_ascii_of_string s%string).
Local Notation length := List.length.
Local Notation concat := List.concat.

Lemma perform_app cs cs' s : perform (cs ++ cs') s = (let? s := perform cs s in perform cs' s).
Proof.
  revert s. induction cs as [|c cs IH]; intros s; cbn [app perform]; [done|]. destruct c; [apply IH|].
  destruct (apply f args s); cbn [rbind]; [apply IH|done..].
Qed.

Lemma last_or_cons {A} (d x : A) l : last_or d (x :: l) = last_or x l.
Proof. unfold last_or. destruct l as [|y l]; [done|]. rewrite last_cons_cons. by destruct (last (y :: l)) eqn:E; [|apply last_None in E]. Qed.
Lemma last_or_nil {A} (d : A) : last_or d [] = d.
Proof. done. Qed.
Lemma last_or_app {A} (d : A) l l' : last_or d (l ++ l') = last_or (last_or d l) l'.
Proof. revert d. induction l as [|x l IH]; intros d; [done|]. cbn [app]. by rewrite !last_or_cons, IH. Qed.
Lemma last_or_map {A B} (f : A -> B) d l : last_or (f d) (map f l) = f (last_or d l).
Proof. revert d. induction l as [|x l IH]; intros d; [done|]. cbn [map]. by rewrite !last_or_cons, IH. Qed.

(** *** Pruning and instabilities *)
Lemma perform_cutoffs cs : forall s, perform (concat (map calls_cutoff cs)) s = Ok (set_cutoff (last_or (cutoff s) cs) s).
Proof.
  induction cs as [|c cs IH]; intros s; [by destruct s|]. cbn [map List.concat calls_cutoff app perform apply rget lookup list_lookup rbind].
  rewrite IH. by rewrite last_or_cons.
Qed.

Definition locating_mode (i : instability) (ms : list (locating Z)) : instability :=
  match last ms with None => i | Some InSandboxes => Coordinator | Some (AsRunner _) => Sandbox end.
Lemma locating_mode_cons i m ms : locating_mode i (m :: ms) = locating_mode (match m with InSandboxes => Coordinator | AsRunner _ => Sandbox end) ms.
Proof.
  unfold locating_mode. destruct ms as [|m' ms]; [by destruct m|]. rewrite last_cons_cons. destruct (last (m' :: ms)) eqn:E; [done|]. by apply last_None in E.
Qed.
Definition id_of (m : locating Z) : option Z := match m with AsRunner z => Some z | InSandboxes => None end.
Lemma perform_locating ls ms : Forall2 means_locating ls ms -> forall s, perform (concat (map calls_locating ls)) s =
  Ok (set_runner_id (last_or (runner_id s) (map to_size (omap id_of ms))) (set_instab (locating_mode (instab s) ms) s)).
Proof.
  induction 1 as [|l m ls ms H _ IH]; intros s; [by destruct s|]. rewrite locating_mode_cons.
  destruct l as [|x], m as [|z]; try done; cbn [map List.concat calls_locating app perform apply rget lookup list_lookup rbind omap list_omap id_of].
  - by rewrite IH.
  - apply stoi_ok in H. rewrite H. cbn [rbind]. rewrite IH. cbn [map]. by rewrite last_or_cons.
Qed.

(** *** New tests *)
Lemma at_back_snoc {A} (l : list A) (x : A) none f : at_back (l ++ [x]) none f = (let? y := f x in Ok (l ++ [y])).
Proof.
  unfold at_back. rewrite last_snoc. destruct (f x); [|done..]. cbn [rbind]. do 2 f_equal. rewrite app_length. cbn [length].
  replace (length l + 1 - 1) with (length l) by lia. by rewrite take_app.
Qed.
Lemma on_nascent_snoc f s l n : nascents s = l ++ [n] -> on_nascent f s = (let? y := f n in Ok (set_nascents (l ++ [y]) s)).
Proof. intros E. unfold on_nascent. rewrite E, at_back_snoc. by destruct (f n). Qed.

Definition set_of (t : novelty) (n : nascent) (s : setting) : nascent :=
  match s with
  | InSuite x => with_suite x n
  | WithHeader x => with_header x n
  | Forename x => with_forename x n
  | Source x =>
      match genus_of t with
      | Semantic => with_dir x (with_source n)
      | _ => if decide (x = namespace_text) then with_source n else with_namespace x (with_source n)
      end
  | DiagnosticTest => with_diagnostics n
  end.
Definition allowed (t : novelty) (s : setting) : Prop := exists ws, says_setting t s ws.

Lemma perform_settings t ss : Forall (allowed t) ss -> forall s l n, nascents s = l ++ [n] -> n_genus n = genus_of t ->
  perform (concat (map (calls_setting t) ss)) s = Ok (set_nascents (l ++ [fold_left (set_of t) ss n]) s).
Proof.
  induction 1 as [|x ss [ws Hx] _ IH]; intros s l n E Hg.
  { cbn [map List.concat perform fold_left]. destruct s. cbn in *. by subst. }
  cbn [map List.concat fold_left]. rewrite perform_app.
  assert (perform (calls_setting t x) s = Ok (set_nascents (l ++ [set_of t n x]) s)) as ->.
  { destruct x; cbn [calls_setting]; [| | |cbn in Hx; destruct t; try done|]; cbn [perform apply]; rewrite (on_nascent_snoc _ s l n E);
      try rewrite Hg; cbn [genus_of set_of]; cbn [rget lookup list_lookup rbind]; done. }
  cbn [rbind]. rewrite (IH _ l (set_of t n x)); [by destruct s|by destruct s|].
  destruct x; cbn [set_of]; [done..| |done]. destruct (genus_of t); [done|case_match; done..].
Qed.

Lemma fold_settings t ss : forall n, fold_left (set_of t) ss n =
  let sources := omap (fun s => match s with Source x => Some x | _ => None end) ss in
  Nascent (n_genus n) (n_type n) (n_qualified n) (n_equivalent n)
    (last_or (n_suite n) (omap (fun s => match s with InSuite x => Some x | _ => None end) ss))
    (last_or (n_header n) (omap (fun s => match s with WithHeader x => Some x | _ => None end) ss))
    (last_or (n_forename n) (omap (fun s => match s with Forename x => Some x | _ => None end) ss))
    (n_source n || existsb (fun s => match s with Source _ => true | _ => false end) ss)
    (match genus_of t with Semantic => last_or (n_dir n) sources | _ => n_dir n end)
    (match genus_of t with Semantic => n_namespace n | _ => last_or (n_namespace n) (filter (fun x => x <> namespace_text) sources) end)
    (n_diagnostics n || existsb (fun s => match s with DiagnosticTest => true | _ => false end) ss)
    (n_final n).
Proof.
  cbv zeta. induction ss as [|x ss IH]; intros n.
  { cbn. rewrite !orb_false_r. destruct n. cbn. by destruct (genus_of t). }
  cbn [fold_left]. rewrite IH. destruct x; cbn [set_of omap list_omap existsb].
  - cbn. by rewrite last_or_cons.
  - cbn. by rewrite last_or_cons.
  - cbn. by rewrite last_or_cons.
  - rewrite filter_cons. destruct (genus_of t) eqn:Eg.
    + cbn. by rewrite last_or_cons, orb_true_r.
    + destruct (decide (x = namespace_text)) as [->|Hx].
      * rewrite (decide_False (P := namespace_text <> namespace_text)) by tauto. cbn [with_source n_genus n_type n_qualified n_equivalent n_suite n_header n_forename n_source n_dir n_namespace n_diagnostics n_final orb]. by rewrite orb_true_r.
      * rewrite (decide_True (P := x <> namespace_text)) by done. cbn [with_source with_namespace n_genus n_type n_qualified n_equivalent n_suite n_header n_forename n_source n_dir n_namespace n_diagnostics n_final orb]. by rewrite orb_true_r, last_or_cons.
    + destruct (decide (x = namespace_text)) as [->|Hx].
      * rewrite (decide_False (P := namespace_text <> namespace_text)) by tauto. cbn [with_source n_genus n_type n_qualified n_equivalent n_suite n_header n_forename n_source n_dir n_namespace n_diagnostics n_final orb]. by rewrite orb_true_r.
      * rewrite (decide_True (P := x <> namespace_text)) by done. cbn [with_source with_namespace n_genus n_type n_qualified n_equivalent n_suite n_header n_forename n_source n_dir n_namespace n_diagnostics n_final orb]. by rewrite orb_true_r, last_or_cons.
  - cbn. by rewrite orb_true_r.
Qed.

Lemma no_source t ss : Forall (allowed t) ss -> genus_of t = Allocation -> omap (fun s => match s with Source x => Some x | _ => None end) ss = [].
Proof.
  intros H Hg. induction H as [|x ss [ws Hx] _ IH]; [done|]. cbn [omap list_omap]. destruct x; try exact IH. by destruct t.
Qed.

Definition fresh (t : novelty) : nascent :=
  Nascent (genus_of t) (type_of t) (match t with Regular c _ | MoveOnly c _ => c | _ => [] end)
    (match t with Regular _ e | MoveOnly _ e => [e] | _ => [] end) [] (match t with Free h | Performance h => h | _ => [] end)
    (match t with RegularAllocation c | MoveOnlyAllocation c => c | _ => [] end) false [] [] false 0.
Lemma make_fresh t : make_nascent (genus_of t) (type_of t) (args_novelty t) = Ok (fresh t).
Proof. by destruct t. Qed.
Lemma created_fold t ss : Forall (allowed t) ss -> finalize (fold_left (set_of t) ss (fresh t)) = created t ss.
Proof.
  intros H. rewrite fold_settings. unfold finalize, created, fresh. cbv zeta. cbn [n_genus n_type n_qualified n_equivalent n_suite n_header n_forename n_source n_dir n_namespace n_diagnostics n_final orb].
  change namespace_text with ⌜"::"⌝. f_equal. destruct (genus_of t) eqn:E; [done| |done]. by rewrite (no_source t ss H E).
Qed.

(** *** New projects *)
Lemma on_project_snoc f s l p : projects s = l ++ [p] -> on_project f s = (let? y := f p in Ok (set_projects (l ++ [y]) s)).
Proof. intros E. unfold on_project. rewrite E, at_back_snoc. by destruct (f p). Qed.

Definition init_of (p : project) (i : initing) : project :=
  match i with
  | WithoutBuild => Project (p_copyright p) (p_root p) (p_indent p) NoBuild (p_git p) (p_output p)
  | WithoutGit => Project (p_copyright p) (p_root p) (p_indent p) (p_build p) false (p_output p)
  | ToFiles x => Project (p_copyright p) (p_root p) (p_indent p) (p_build p) (p_git p) x
  | WithoutIde => Project (p_copyright p) (p_root p) (p_indent p) (match p_build p with LaunchIde => Build | b => b end) (p_git p) (p_output p)
  end.
Lemma perform_initing is : forall s l p, projects s = l ++ [p] ->
  perform (concat (map calls_initing is)) s = Ok (set_projects (l ++ [fold_left init_of is p]) s).
Proof.
  induction is as [|i is IH]; intros s l p E.
  { cbn. destruct s. cbn in *. by subst. }
  cbn [map List.concat fold_left]. rewrite perform_app.
  assert (perform (calls_initing i) s = Ok (set_projects (l ++ [init_of p i]) s)) as ->.
  { destruct i; cbn [calls_initing perform apply]; by rewrite (on_project_snoc _ s l p E). }
  cbn [rbind]. rewrite (IH _ l (init_of p i)); by destruct s.
Qed.
Lemma fold_initing is : forall p, fold_left init_of is p =
  Project (p_copyright p) (p_root p) (p_indent p)
    (if existsb (fun i => match i with WithoutBuild => true | _ => false end) is then NoBuild
     else if existsb (fun i => match i with WithoutIde => true | _ => false end) is then match p_build p with LaunchIde => Build | b => b end else p_build p)
    (p_git p && negb (existsb (fun i => match i with WithoutGit => true | _ => false end) is))
    (last_or (p_output p) (omap (fun i => match i with ToFiles x => Some x | _ => None end) is)).
Proof.
  induction is as [|i is IH]; intros p; [cbn; rewrite andb_true_r; by destruct p|]. cbn [fold_left]. rewrite IH. destruct i; cbn.
  - f_equal. destruct (existsb _ is); [done|]. by destruct (existsb _ is).
  - by rewrite andb_false_r.
  - by rewrite last_or_cons.
  - f_equal. destruct (existsb _ is); [done|]. destruct (existsb _ is); [|done]. by destruct (p_build p).
Qed.

Lemma occurs_tab c d l : Text.Spec.occurs_at tab_text (c :: d :: l) 0 <-> c = "\"%char /\ d = "t"%char.
Proof.
  rewrite Text.Proofs.occurs_at_0. split.
  - intros [post E]. by injection E as -> -> _.
  - intros [-> ->]. by exists l.
Qed.
Lemma untab_skip pre l : (forall i, Text.Spec.occurs_at tab_text (pre ++ l) i -> length pre <= i) -> untab (pre ++ l) = pre ++ untab l.
Proof.
  induction pre as [|c pre IH]; intros H; [done|]. cbn [app].
  assert (untab (pre ++ l) = pre ++ untab l) as E.
  { apply IH. intros i Hi. apply le_S_n. apply (H (S i)). cbn [app]. by apply Text.Proofs.occurs_at_S. }
  rewrite <-E. cbn [app] in H. destruct (pre ++ l) as [|d r] eqn:Ed; [done|].
  change (untab (c :: d :: r)) with (if decide (c = "\"%char /\ d = "t"%char) then "009"%char :: untab r else c :: untab (d :: r)).
  rewrite decide_False; [done|]. intros Hc. apply (occurs_tab c d r) in Hc. apply H in Hc. cbn [length] in Hc. lia.
Qed.
Lemma untab_replaced l : Text.Spec.replaced tab_text ["009"%char] l (untab l).
Proof.
  induction l as [l IH] using (induction_ltof1 _ length). unfold ltof in IH.
  destruct (Text.Proofs.first_or_none tab_text l) as [H|(pre&post&->&H)].
  - assert (untab l = l) as E; [|rewrite E; by constructor].
    pose proof (untab_skip l []) as E. rewrite !app_nil_r in E. apply E. intros i Hi. exfalso. apply H. by exists i.
  - rewrite untab_skip by apply H. change (untab (tab_text ++ post)) with (["009"%char] ++ untab post).
    constructor; [done|]. apply IH. rewrite !app_length. cbn. lia.
Qed.
Lemma untab_ok i : replace_all (S (length i)) i tab_text ["009"%char] = Ok (untab i).
Proof. apply Text.Proofs.replace_all_unique; [done|lia|apply untab_replaced]. Qed.

(** *** The state after a number of commands, before it is checked *)
Definition before (us : list (usage Z)) (d : option folder) : state :=
  State (omap suite_of us) (omap file_of us)
    (existsb is_testing us) (existsb is_create us) (existsb is_init us)
    (existsb is_prune us) (last_or [] (concat (map cutoffs_of us))) (existsb is_verbose us)
    (existsb is_update us) (existsb is_recover us) (existsb is_dump us)
    (wanted_conc us) (wanted_instab us) (wanted_reps us) (last_or 0%Z (map to_size (concat (map ids_of us))))
    (last_or 8%Z (omap pool_of us)) (omap created_of us) (omap inited_of us) (omap senseless_pool us) (cleared us d).

Lemma omap_snoc {A B} (f : A -> option B) l x : omap f (l ++ [x]) = omap f l ++ match f x with Some y => [y] | None => [] end.
Proof. rewrite omap_app. cbn [omap list_omap]. by destruct (f x). Qed.
Lemma existsb_snoc {A} (f : A -> bool) l x : existsb f (l ++ [x]) = existsb f l || f x.
Proof. rewrite existsb_app. cbn. by rewrite orb_false_r. Qed.
Lemma concat_snoc {A B} (f : A -> list B) l x : concat (map f (l ++ [x])) = concat (map f l) ++ f x.
Proof. rewrite map_app, concat_app. cbn. by rewrite app_nil_r. Qed.

Lemma last_said_conc us c : last (omap said_conc us) = Some c -> c <> Dynamic.
Proof.
  intros H. apply last_Some in H as [l H]. assert (c ∈ omap said_conc us) as Hc by (rewrite H; apply elem_of_app; right; by left).
  apply elem_of_list_omap in Hc as (u&_&Hu). destruct u; cbn in Hu; try done; [by injection Hu as <-|]. case_match; [|done]. by injection Hu as <-.
Qed.

Lemma wanted_conc_snoc us v : wanted_conc (us ++ [v]) =
  match said_conc v with
  | Some c => c
  | None => if is_recover v || is_dump v then match wanted_conc us with Dynamic => Serial | c => c end else wanted_conc us
  end.
Proof.
  unfold wanted_conc. rewrite omap_snoc, !existsb_snoc. destruct (said_conc v) as [c|]; [by rewrite last_snoc|]. rewrite app_nil_r.
  destruct (last (omap said_conc us)) as [c|] eqn:E.
  - destruct (is_recover v || is_dump v); [|done]. apply last_said_conc in E. by destruct c.
  - destruct (existsb is_recover us), (existsb is_dump us), (is_recover v), (is_dump v); done.
Qed.
Lemma wanted_instab_snoc us v : wanted_instab (us ++ [v]) =
  match said_locate v with Some (_, ls) => locating_mode SingleInstance ls | None => wanted_instab us end.
Proof. unfold wanted_instab. rewrite omap_snoc. destruct (said_locate v) as [[n ls]|]; [by rewrite last_snoc|by rewrite app_nil_r]. Qed.
Lemma wanted_reps_snoc us v : wanted_reps (us ++ [v]) = match said_locate v with Some (n, _) => n | None => wanted_reps us end.
Proof. unfold wanted_reps. rewrite omap_snoc. destruct (said_locate v) as [[n ls]|]; [by rewrite last_snoc|by rewrite app_nil_r]. Qed.
Lemma cleared_snoc us v d : cleared (us ++ [v]) d =
  if is_recover v then Some (match cleared us d with None => Folder None None | Some d => Folder None (dump_file d) end)
  else if is_dump v then Some (match cleared us d with None => Folder None None | Some d => Folder (recovery_file d) None end)
  else cleared us d.
Proof.
  unfold cleared. rewrite !existsb_snoc. destruct v; cbn [is_recover is_dump]; rewrite ?orb_true_r, ?orb_false_r; cbn [orb]; try done.
  - destruct (existsb is_recover us), (existsb is_dump us), d; done.
  - destruct (existsb is_recover us), (existsb is_dump us), d; done.
Qed.

Definition fitting (u : usage text) : Prop := match u with CreateTest t ss => Forall (allowed t) ss | _ => True end.

Lemma before_snoc us v d : before (us ++ [v]) d =
  State (omap suite_of us ++ match suite_of v with Some y => [y] | None => [] end) (omap file_of us ++ match file_of v with Some y => [y] | None => [] end)
    (existsb is_testing us || is_testing v) (existsb is_create us || is_create v) (existsb is_init us || is_init v)
    (existsb is_prune us || is_prune v) (last_or (last_or [] (concat (map cutoffs_of us))) (cutoffs_of v)) (existsb is_verbose us || is_verbose v)
    (existsb is_update us || is_update v) (existsb is_recover us || is_recover v) (existsb is_dump us || is_dump v)
    (wanted_conc (us ++ [v])) (wanted_instab (us ++ [v])) (wanted_reps (us ++ [v]))
    (last_or (last_or 0%Z (map to_size (concat (map ids_of us)))) (map to_size (ids_of v)))
    (last_or (last_or 8%Z (omap pool_of us)) (match pool_of v with Some y => [y] | None => [] end))
    (omap created_of us ++ match created_of v with Some y => [y] | None => [] end)
    (omap inited_of us ++ match inited_of v with Some y => [y] | None => [] end)
    (omap senseless_pool us ++ match senseless_pool v with Some y => [y] | None => [] end) (cleared (us ++ [v]) d).
Proof. unfold before. by rewrite !omap_snoc, !existsb_snoc, !concat_snoc, !map_app, !last_or_app. Qed.

Ltac tidy := rewrite before_snoc, wanted_conc_snoc, wanted_instab_snoc, wanted_reps_snoc, cleared_snoc;
  cbn [suite_of file_of is_testing is_create is_init is_prune cutoffs_of is_verbose is_update is_recover is_dump said_conc said_locate ids_of pool_of created_of inited_of senseless_pool orb map];
  rewrite ?app_nil_r, ?orb_false_r, ?orb_true_r, ?last_or_nil.

Lemma step u v us d : fitting u -> means u v -> perform (calls_of u) (before us d) = Ok (before (us ++ [v]) d).
Proof.
  intros Hf. destruct 1 as [x|x|cs|t ss|c r i is| |x z ls ms Hx Hz H2 HF| | | |x z Hx Hz|]; cbn [calls_of].
  - tidy. done.
  - tidy. done.
  - cbn [perform apply rbind]. rewrite perform_cutoffs. tidy. done.
  - cbn [perform apply rbind]. rewrite make_fresh. cbn [rbind]. rewrite perform_app.
    rewrite (perform_settings t ss Hf _ (omap created_of us) (fresh t)); [|done|done]. cbn [rbind perform apply].
    rewrite (on_nascent_snoc _ _ (omap created_of us) (fold_left (set_of t) ss (fresh t))) by done. cbn [rbind].
    rewrite (created_fold t ss Hf). tidy.
    assert (exists a l, omap created_of us ++ [fold_left (set_of t) ss (fresh t)] = a :: l) as (a&l&E) by (destruct (omap created_of us); eauto).
    cbn [nascents set_nascents]. rewrite E. done.
  - cbn [perform apply rget lookup list_lookup rbind]. rewrite untab_ok. cbn [rbind].
    rewrite (perform_initing is _ (omap inited_of us) (Project c r (untab i) LaunchIde true [])) by done.
    rewrite fold_initing. tidy. done.
  - tidy. done.
  - cbn [perform apply rget lookup list_lookup rbind]. rewrite (proj2 (stoi_ok x z) (conj Hx Hz)). cbn [rbind].
    rewrite (proj2 (Z.ltb_ge z 2) H2). cbn [rbind]. rewrite (perform_locating ls ms HF). tidy. done.
  - tidy. unfold before. cbn. unfold go_serial. cbn. destruct (wanted_conc us); cbn; done.
  - tidy. unfold before. cbn. unfold go_serial. cbn. destruct (wanted_conc us); cbn; done.
  - tidy. done.
  - cbn [perform apply rget lookup list_lookup rbind]. rewrite (proj2 (stoi_ok x z) (conj Hx Hz)). cbn [rbind]. tidy.
    destruct (0 <? z)%Z; cbn [last_or]; rewrite ?app_nil_r; done.
  - tidy. done.
Qed.

Lemma perform_line us vs d : Forall fitting us -> Forall2 means us vs -> perform (concat (map calls_of us)) (initial d) = Ok (before vs d).
Proof.
  intros Hf HF. revert vs HF. induction us as [|u us IH] using rev_ind; intros vs HF.
  { inversion HF; subst. done. }
  apply Forall2_app_inv_l in HF as (vs1&vs2&H1&H2&->). inversion H2 as [|? v ? ? Hm Hn]; subst. inversion Hn; subst.
  apply Forall_app in Hf as [Hf Hu]. apply Forall_cons in Hu as [Hu _].
  rewrite map_app, concat_app, perform_app, (IH Hf vs1 H1). cbn [rbind map List.concat]. rewrite app_nil_r. by apply step.
Qed.

Lemma says_fitting u ws : says u ws -> fitting u.
Proof.
  destruct 1 as [| | |t ss w ws wss _ _ HF| | | | | | | |]; try done. cbn. clear -HF. induction HF; constructor; [by eexists|done].
Qed.

Lemma selected us d : filtered (before us d) = selecting us.
Proof.
  unfold filtered, before, selecting. cbn [suites items]. induction us as [|u us IH]; [done|]. cbn [existsb]. rewrite <-IH. clear IH.
  destruct u; cbn [suite_of file_of omap list_omap]; try done. cbn [orb]. by rewrite orb_true_r.
Qed.

Lemma locate_instab us : existsb is_locate us = match wanted_instab us with Stable => false | _ => true end.
Proof.
  induction us as [|u us IH] using rev_ind; [done|]. rewrite existsb_snoc, wanted_instab_snoc.
  destruct u; cbn [is_locate said_locate]; rewrite ?orb_false_r; try exact IH. rewrite orb_true_r. unfold locating_mode.
  destruct (last ls) as [[]|]; done.
Qed.

Lemma chosen_mode us d (s := before us d) :
  (if mode_test s || mode_create s || mode_init s then s else set_mode_test true s) =
  set_mode_test (existsb is_testing us || negb (existsb is_create us || existsb is_init us)) s.
Proof.
  subst s. unfold before. cbn [mode_test mode_create mode_init]. destruct (existsb is_testing us), (existsb is_create us), (existsb is_init us); done.
Qed.

Definition settle (us : list (usage Z)) (s : state) : state :=
  let s := if existsb is_update us && existsb is_locate us then warn UpdateWarning (set_updating false s) else s in
  if existsb is_prune us && selecting us then warn PruneWarning (set_pruning false s) else s.

Lemma settle_wanted us d :
  settle us (set_mode_test (existsb is_testing us || negb (existsb is_create us || existsb is_init us)) (before us d)) = as_wanted us d.
Proof.
  unfold settle, as_wanted, before. cbv zeta. change to_size with (fun z => (z mod 2 ^ 64)%Z).
  destruct (existsb is_update us), (existsb is_locate us), (existsb is_prune us), (selecting us); cbn [andb negb]; cbv beta iota delta [warn set_updating set_pruning set_mode_test suites items mode_test mode_create mode_init pruning cutoff verbose updating recovering dumping conc instab reps runner_id pool nascents projects warnings recovery_dir];
    rewrite ?app_nil_r, <-?app_assoc; reflexivity.
Qed.

Lemma checked us s m d : s = set_mode_test m (before us d) ->
  check_consistency s = match wanted_conc us with
                        | Serial => Ok (settle us s)
                        | _ => if existsb is_recover us || existsb is_dump us then Throw RuntimeError else Ok (settle us s)
                        end.
Proof.
  intros ->. unfold check_consistency, settle. rewrite locate_instab.
  change (instab (set_mode_test m (before us d))) with (wanted_instab us).
  change (updating (set_mode_test m (before us d))) with (existsb is_update us).
  set (s' := match wanted_instab us, existsb is_update us with
           | Stable, _ | _, false => set_mode_test m (before us d)
           | _, true => warn UpdateWarning (set_updating false (set_mode_test m (before us d)))
           end).
  assert (s' = if existsb is_update us && match wanted_instab us with Stable => false | _ => true end
               then warn UpdateWarning (set_updating false (set_mode_test m (before us d))) else set_mode_test m (before us d)) as E.
  { subst s'. by destruct (wanted_instab us), (existsb is_update us). }
  rewrite <-E. cbv zeta.
  assert (conc s' = wanted_conc us /\ recovering s' = existsb is_recover us /\ dumping s' = existsb is_dump us /\ pruning s' = existsb is_prune us /\ filtered s' = selecting us) as (->&->&->&->&->).
  { rewrite <-(selected us d). rewrite E. by destruct (_ && _). }
  destruct (wanted_conc us); cbn [rbind]; [done|..]; destruct (existsb is_recover us || existsb is_dump us); done.
Qed.

Lemma wanted_dynamic us : wanted_conc us = Dynamic -> existsb is_recover us || existsb is_dump us = false.
Proof.
  unfold wanted_conc. destruct (last (omap said_conc us)) as [c|] eqn:E; [|by destruct (_ || _)]. intros ->. by apply last_said_conc in E.
Qed.

Lemma process_said z us wss d : Forall2 says us wss ->
  process_args (z :: concat wss) d =
  (let? s := perform (concat (map calls_of us)) (initial d) in
   let s := if mode_test s || mode_create s || mode_init s then s else set_mode_test true s in
   let? s := check_consistency s in Ok ([], s)).
Proof. intros HF. unfold process_args. rewrite (line_calls z us wss HF). cbn [rbind snd fst perform]. done. Qed.

Lemma all_fitting us wss : Forall2 says us wss -> Forall fitting us.
Proof. induction 1; constructor; [by eapply says_fitting|done]. Qed.

Lemma process_meant z us wss vs d : Forall2 says us wss -> Forall2 means us vs ->
  process_args (z :: concat wss) d =
  match wanted_conc vs with
  | Serial => Ok ([], as_wanted vs d)
  | _ => if existsb is_recover vs || existsb is_dump vs then Throw RuntimeError else Ok ([], as_wanted vs d)
  end.
Proof.
  intros HF HM. rewrite (process_said z us wss d HF), (perform_line us vs d (all_fitting us wss HF) HM). cbn [rbind]. cbv zeta.
  rewrite chosen_mode. rewrite (checked vs _ _ d eq_refl), settle_wanted.
  destruct (wanted_conc vs); [done|..]; by destruct (_ || _).
Qed.

Theorem process_wanted z us wss vs d : Forall2 says us wss -> Forall2 means us vs -> ~ contradictory vs ->
  process_args (z :: concat wss) d = Ok ([], as_wanted vs d).
Proof.
  intros HF HM Hc. rewrite (process_meant z us wss vs d HF HM). destruct (wanted_conc vs) eqn:E; [done|by rewrite (wanted_dynamic vs E)|].
  destruct (_ || _) eqn:Eb; [|done]. exfalso. apply Hc. split; [by apply orb_true_iff|done].
Qed.
Theorem process_contradictory z us wss vs d : Forall2 says us wss -> Forall2 means us vs -> contradictory vs ->
  process_args (z :: concat wss) d = Throw RuntimeError.
Proof.
  intros HF HM [H1 H2]. rewrite (process_meant z us wss vs d HF HM), H2. apply orb_true_iff in H1. by rewrite H1.
Qed.

(** *** Errors *)
Lemma perform_throw cs cs' s e : perform cs s = Throw e -> perform (cs ++ cs') s = Throw e.
Proof. intros H. by rewrite perform_app, H. Qed.
Lemma bad_step u e s : bad u e -> perform (calls_of u) s = Throw e.
Proof.
  destruct 1 as [x e H|x ls H|x z ls ms y ls' e Hx Hz H2 HF H].
  - apply stoi_bad in H. cbn [calls_of perform apply rget lookup list_lookup rbind]. by rewrite H.
  - cbn [calls_of perform apply rget lookup list_lookup rbind]. destruct (stoi_total x) as [[z E]|[e E]]; rewrite E; cbn [rbind]; [|done].
    apply stoi_ok in E as [E F]. by rewrite (proj2 (Z.ltb_lt z 2) (H z E F)).
  - cbn [calls_of perform apply rget lookup list_lookup rbind]. rewrite (proj2 (stoi_ok x z) (conj Hx Hz)). cbn [rbind].
    rewrite (proj2 (Z.ltb_ge z 2) H2). cbn [rbind]. rewrite map_app, concat_app, perform_app, (perform_locating ls ms HF).
    cbn [rbind map List.concat calls_locating app perform apply rget lookup list_lookup]. apply stoi_bad in H. by rewrite H.
Qed.
Theorem process_bad z us u us' wss vs e d : Forall2 says (us ++ u :: us') wss -> Forall2 means us vs -> bad u e ->
  process_args (z :: concat wss) d = Throw e.
Proof.
  intros HF HM Hb. rewrite (process_said z _ wss d HF). apply all_fitting, Forall_app in HF as [Hf _].
  rewrite map_app, concat_app, perform_app, (perform_line us vs d Hf HM). cbn [rbind map List.concat]. by rewrite perform_app, (bad_step u e _ Hb).
Qed.

Lemma locating_cases (ls : list (locating text)) : (exists ms, Forall2 means_locating ls ms) \/
  (exists ls1 ms y ls2 e, ls = ls1 ++ AsRunner y :: ls2 /\ Forall2 means_locating ls1 ms /\ bad_number y e).
Proof.
  induction ls as [|l ls IH]; [left; by exists []|].
  assert ((exists m, means_locating l m) \/ exists y e, l = AsRunner y /\ bad_number y e) as [[m Hm]|(y&e&->&Hy)].
  { destruct l as [|y]; [left; by exists InSandboxes|]. destruct (stoi_total y) as [[z E]|[e E]].
    - left. exists (AsRunner z). by apply stoi_ok.
    - right. exists y, e. split; [done|]. by apply stoi_bad. }
  - destruct IH as [[ms H]|(ls1&ms&y&ls2&e&->&H1&H2)]; [left; exists (m :: ms); by constructor|].
    right. exists (l :: ls1), (m :: ms), y, ls2, e. split; [done|]. split; [by constructor|done].
  - right. exists [], [], y, ls, e. split; [done|]. split; [constructor|done].
Qed.
Lemma usage_cases u : (exists v, means u v) \/ (exists e, bad u e).
Proof.
  destruct u as [x|x|cs|t ss|c r i is| |x ls| | | |x|]; try (left; eexists; by constructor).
  - destruct (stoi_total x) as [[z E]|[e E]].
    + apply stoi_ok in E as [E F]. destruct (decide (z < 2)%Z) as [Hz|Hz].
      * right. exists RuntimeError. constructor. intros z' E' F'. by rewrite (number_fun x z' z).
      * destruct (locating_cases ls) as [[ms H]|(ls1&ms&y&ls2&e&->&H1&H2)].
        -- left. exists (LocateInstabilities z ms). constructor; try done. lia.
        -- right. exists e. apply (bad_runner x z ls1 ms y ls2 e); try done. lia.
    + right. exists RuntimeError. constructor. intros z E' F'. by rewrite (proj2 (stoi_ok x z) (conj E' F')) in E.
  - destruct (stoi_total x) as [[z E]|[e E]].
    + apply stoi_ok in E as [E F]. left. exists (ThreadPool z). by constructor.
    + right. exists e. constructor. by apply stoi_bad.
Qed.
Theorem line_cases us : (exists vs, Forall2 means us vs) \/ (exists us1 vs u us2 e, us = us1 ++ u :: us2 /\ Forall2 means us1 vs /\ bad u e).
Proof.
  induction us as [|u us IH]; [left; by exists []|]. destruct (usage_cases u) as [[v Hv]|[e He]].
  - destruct IH as [[vs H]|(us1&vs&u'&us2&e&->&H1&H2)]; [left; exists (v :: vs); by constructor|].
    right. exists (u :: us1), (v :: vs), u', us2, e. split; [done|]. split; [by constructor|done].
  - right. exists [], [], u, us, e. split; [done|]. split; [constructor|done].
Qed.
