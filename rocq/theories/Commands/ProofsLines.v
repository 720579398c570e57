(** The lines of the test runner are understood. *)
From Coq Require Import Ascii String ZArith.
From stdpp Require Import list.
From Verif.Base Require Import Outcome ListLemmas.
From Verif.Text Require Import Model.
From Verif.CommandLine Require Import Model Spec SpecWritten ProofsParse ProofsWritten.
From Verif.Commands Require Import Model Spec.
Local Notation "⌜ s ⌝" := (list_ascii_of_string s%string).
Local Notation concat := List.concat.

(** The calls which are made *)
Definition calls_setting (t : novelty) (s : setting) : list (call action) :=
  match s with
  | InSuite x => [Invoke ASuite [x]]
  | WithHeader x => [Invoke AHeader [x]]
  | Forename x => [Invoke AForename [x]]
  | Source x => [Invoke (match t with Free _ => AGenFree | _ => AGenSemantics end) [x]]
  | DiagnosticTest => [Invoke ADiagnostics []]
  end.
Definition args_novelty (t : novelty) : list text :=
  match t with
  | Regular c e | MoveOnly c e => [c; e]
  | RegularAllocation c | MoveOnlyAllocation c => [c]
  | Free h | Performance h => [h]
  end.
Definition calls_initing (i : initing) : list (call action) :=
  match i with
  | WithoutBuild => [Invoke ANoBuild []] | WithoutGit => [Invoke ANoGit []] | ToFiles x => [Invoke AToFiles [x]] | WithoutIde => [Invoke ANoIde []]
  end.
Definition calls_locating (l : locating text) : list (call action) :=
  match l with InSandboxes => [Invoke ASandbox []] | AsRunner x => [Invoke ARunnerId [x]] end.
Definition calls_cutoff (c : text) : list (call action) := [Invoke ACutoff [c]].
Definition calls_of (u : usage text) : list (call action) :=
  match u with
  | TestSuite x => [Invoke ATest [x]]
  | SelectFile x => [Invoke ASelect [x]]
  | PruneTests cs => Invoke APrune [] :: concat (map calls_cutoff cs)
  | CreateTest t ss =>
      Invoke ACreate [] :: Invoke (ANascent (genus_of t) (type_of t)) (args_novelty t) :: concat (map (calls_setting t) ss) ++ [Invoke AFinalize []]
  | InitProject c r i is => Invoke AInit [c; r; i] :: concat (map calls_initing is)
  | UpdateMaterials => [Invoke AUpdate []]
  | LocateInstabilities x ls => Invoke ALocate [x] :: concat (map calls_locating ls)
  | RecoverTests => [Invoke ARecover []]
  | DumpTests => [Invoke ADump []]
  | RunSerially => [Invoke ASerial []]
  | ThreadPool x => [Invoke APool [x]]
  | Verbose => [Invoke AVerbose []]
  end.

Definition stands (os : list (opt action)) (ws : list text) (cs : list (call action)) : Prop :=
  exists wr, proper os wr /\ words wr = ws /\ calls (meant wr) = cs.

Lemma nested {A} (R : A -> list text -> Prop) (cs : A -> list (call action)) os xs wss :
  (forall x ws, R x ws -> stands os ws (cs x)) -> Forall2 R xs wss ->
  exists wrs, Forall (proper os) wrs /\ concat (map words wrs) = concat wss /\ concat (map calls (map meant wrs)) = concat (map cs xs).
Proof.
  intros H. induction 1 as [|x ws xs wss HR _ (wrs&Hp&Hw&Hc)]; [by exists []|].
  destruct (H x ws HR) as (wr&Hp'&<-&Hc'). exists (wr :: wrs). split; [by constructor|]. cbn [map List.concat]. by rewrite Hw, Hc, Hc'.
Qed.

Lemma stands_tree os o w args {A} (R : A -> list text -> Prop) (cs : A -> list (call action)) xs wss :
  find_opt (fun o => named o w) os = Some o -> bool_decide (w <> []) = true -> bound o = true -> List.length args = List.length (o_params o) ->
  (forall x ws, R x ws -> stands (o_children o) ws (cs x)) -> Forall2 R xs wss ->
  stands os (w :: args ++ concat wss) (invoke (o_early o) args ++ concat (map cs xs) ++ invoke (o_late o) args).
Proof.
  intros Hf Hw Hb Hl H HF. destruct (nested R cs (o_children o) xs wss H HF) as (wrs&Hp&Hws&Hc).
  exists (Written o w args wrs). split; [|split].
  - apply proper_use; [by apply bool_decide_eq_true in Hw|by apply (find_opt_some _ _ _ _ (named_spelt _))|done|done|done].
  - cbn [words]. by rewrite Hws.
  - cbn [meant calls]. rewrite Hc. unfold started. cbn [early late arguments]. done.
Qed.
Lemma stands_leaf os name aliases params a w args :
  find_opt (fun o => named o w) os = Some (leaf name aliases params a) -> bool_decide (w <> []) = true -> List.length args = List.length params ->
  stands os (w :: args) [Invoke a args].
Proof.
  intros Hf Hw Hl. pose proof (stands_tree os _ w args (fun (x : unit) _ => False) (fun _ => []) [] [] Hf Hw eq_refl Hl) as H.
  cbn [concat map app leaf o_early o_late invoke] in H. rewrite app_nil_r in H. apply H; [done|constructor].
Qed.

Lemma stands_early os name aliases params a children w args {A} (R : A -> list text -> Prop) (cs : A -> list (call action)) xs wss l :
  l = w :: args ++ concat wss -> find_opt (fun o => named o w) os = Some (Opt name aliases params (Some a) None children) -> bool_decide (w <> []) = true -> List.length args = List.length params ->
  (forall x ws, R x ws -> stands children ws (cs x)) -> Forall2 R xs wss ->
  stands os l (Invoke a args :: concat (map cs xs)).
Proof.
  intros -> Hf Hw Hl H HF. pose proof (stands_tree os _ w args R cs xs wss Hf Hw eq_refl Hl H HF) as Hs.
  cbn [o_early o_late invoke app] in Hs. by rewrite app_nil_r in Hs.
Qed.

Ltac each H := repeat (apply elem_of_cons in H as [->|H]); [..|by apply elem_of_nil in H].
Ltac as_leaf := eapply stands_leaf; [reflexivity|reflexivity|reflexivity].

Lemma says_setting_stands t s ws o : o ∈ create_options -> o_early o = Some (ANascent (genus_of t) (type_of t)) ->
  says_setting t s ws -> stands (o_children o) ws (calls_setting t s).
Proof.
  intros Ho Et Hs. unfold create_options in Ho.
  destruct t; each Ho; try discriminate Et; clear Et; cbn [o_children nascent_option]; destruct s; cbn in Hs; try done; destruct Hs as (w&Hw&->); each Hw; as_leaf.
Qed.
Lemma novelty_option t ws : says_novelty t ws -> exists w o, ws = w :: args_novelty t /\ find_opt (fun o => named o w) create_options = Some o /\
  bool_decide (w <> []) = true /\ o ∈ create_options /\ o_early o = Some (ANascent (genus_of t) (type_of t)) /\ o_late o = None /\
  List.length (args_novelty t) = List.length (o_params o).
Proof.
  intros H. destruct t; cbn in H; destruct H as (w&Hw&->); each Hw;
    (eexists _, _; split; [reflexivity|]; split; [reflexivity|]; split; [reflexivity|]; split; [|done]; unfold create_options; repeat (first [by left|right])).
Qed.
Lemma says_novelty_stands t ws ss wss : says_novelty t ws -> Forall2 (says_setting t) ss wss ->
  stands create_options (ws ++ concat wss) (Invoke (ANascent (genus_of t) (type_of t)) (args_novelty t) :: concat (map (calls_setting t) ss)).
Proof.
  intros Hn HF. destruct (novelty_option t ws Hn) as (w&o&->&Hf&Hw&Ho&He&Hl&Hlen).
  pose proof (stands_tree create_options o w (args_novelty t) (says_setting t) (calls_setting t) ss wss Hf Hw) as H.
  rewrite He, Hl in H. cbn [invoke app] in H. rewrite app_nil_r in H. apply H; [by unfold bound; rewrite He|done| |done].
  intros s ws. by apply says_setting_stands.
Qed.

Lemma says_stands u ws : says u ws -> stands runner_options ws (calls_of u).
Proof.
  destruct 1 as [x w Hw|x w Hw|cs w wss Hw HF|t ss w ws wss Hw Hn HF|c r i is w wss Hw HF|w Hw|x ls w wss Hw HF| | | |x|w Hw]; cbn [calls_of].
  - each Hw; as_leaf.
  - each Hw; as_leaf.
  - each Hw;
      (eapply (stands_early runner_options _ _ _ _ _ _ [] says_cutoff calls_cutoff cs wss); [reflexivity|reflexivity|reflexivity|reflexivity| |done];
       intros x ws (v&Hv&->); each Hv; as_leaf).
  - assert (forall w, find_opt (fun o => named o w) runner_options = Some (Opt ⌜"create"⌝ [⌜"c"⌝] [] (Some ACreate) (Some AFinalize) create_options) ->
      bool_decide (w <> []) = true -> stands runner_options (w :: ws ++ concat wss) (calls_of (CreateTest t ss))) as H; [|each Hw; by apply H].
    clear w Hw. intros w Hf Hw.
    pose proof (stands_tree runner_options _ w [] (fun (_ : unit) l => l = ws ++ concat wss)
      (fun _ => Invoke (ANascent (genus_of t) (type_of t)) (args_novelty t) :: concat (map (calls_setting t) ss)) [tt] [ws ++ concat wss] Hf Hw eq_refl eq_refl) as H.
    cbn [map List.concat app o_early o_late invoke] in H. rewrite !app_nil_r in H. apply H.
    + intros _ l ->. cbn [o_children]. by apply says_novelty_stands.
    + by repeat constructor.
  - each Hw;
      (eapply (stands_early runner_options _ _ _ _ _ _ [c; r; i] says_initing calls_initing is wss); [reflexivity|reflexivity|reflexivity|reflexivity| |done];
       intros x ws Hv; destruct x; cbn in Hv; subst ws; as_leaf).
  - each Hw; as_leaf.
  - each Hw;
      (eapply (stands_early runner_options _ _ _ _ _ _ [x] says_locating calls_locating ls wss); [reflexivity|reflexivity|reflexivity|reflexivity| |done];
       intros y ws Hv; destruct y; cbn in Hv; subst ws; as_leaf).
  - as_leaf.
  - as_leaf.
  - as_leaf.
  - as_leaf.
  - each Hw; as_leaf.
Qed.

Lemma runner_clear : clear [] runner_options.
Proof. apply (clearb_clear 4). vm_compute. reflexivity. Qed.

Lemma line_calls z us wss : Forall2 says us wss ->
  parse_invoke (z :: concat wss) runner_options = Ok ([], Zeroth z :: concat (map calls_of us)).
Proof.
  intros HF. destruct (nested says calls_of runner_options us wss says_stands HF) as (wrs&Hp&Hw&Hc).
  rewrite <-Hw, <-Hc. apply written_invoked; [done|exact runner_clear|done].
Qed.
