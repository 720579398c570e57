(** Proofs about the prune files. *)
From Coq Require Import Ascii NArith.
From stdpp Require Import list sets sorting.
From Verif.Base Require Import Outcome Compare ListLemmas.
From Verif.Text Require Import Model.
From Verif.Failure Require Import Model Proofs.
From Verif.Prune Require Import Model Spec.
Local Open Scope res_scope.

(** ** Set algorithms *)

Lemma path_total : total_cmp path_compare.
Proof.
  unfold path_compare. split.
  - intros x y. destruct (rooted x) eqn:Ex, (rooted y) eqn:Ey; try apply (cmp_eq Failure.Proofs.path_total);
      (split; [done|intros ->; congruence]).
  - intros x y. destruct (rooted x), (rooted y); try done; apply (cmp_opp Failure.Proofs.path_total).
  - intros x y z. destruct (rooted x), (rooted y), (rooted z); try done; apply (cmp_trans Failure.Proofs.path_total).
Qed.

Definition plt (x y : list text) : Prop := path_compare x y = Lt.
Definition psorted (l : list (list text)) : Prop := StronglySorted plt l.

Lemma plt_trans x y z : plt x y -> plt y z -> plt x z.
Proof. apply (cmp_trans path_total). Qed.

Lemma plt_irrefl x : ~ plt x x.
Proof. apply (cmp_irrefl path_total). Qed.

Lemma Forall_plt_trans x y l : plt x y -> Forall (plt y) l -> Forall (plt x) l.
Proof. intros H HF. eapply Forall_impl; [exact HF|]. intros z. by apply plt_trans. Qed.

Lemma plt_not_in x l : Forall (plt x) l -> x ∉ l.
Proof. intros HF Hin. rewrite Forall_forall in HF. by apply (plt_irrefl x), HF. Qed.

Lemma path_cases x y : (path_compare x y = Eq /\ x = y) \/ (path_compare x y = Lt /\ plt x y) \/ (path_compare x y = Gt /\ plt y x).
Proof.
  destruct (path_compare x y) eqn:E; [left|right; left|right; right]; split; try done.
  - by apply (cmp_eq path_total).
  - by apply (cmp_gt path_total).
Qed.

Lemma psorted_NoDup l : psorted l -> NoDup l.
Proof. induction 1 as [|x l Hs IH HF]; constructor; [by apply plt_not_in|done]. Qed.

Lemma set_union_nil_r l : set_union l [] = l.
Proof. by destruct l. Qed.

Lemma set_union_cons x l1 y l2 : set_union (x :: l1) (y :: l2) =
  match path_compare x y with
  | Lt => x :: set_union l1 (y :: l2) | Gt => y :: set_union (x :: l1) l2 | Eq => x :: set_union l1 l2 end.
Proof. done. Qed.

(** Also for lists which are not sorted *)
Lemma set_union_in l1 l2 p : p ∈ set_union l1 l2 <-> p ∈ l1 \/ p ∈ l2.
Proof.
  revert l2. induction l1 as [|x l1 IH]; intros l2; [cbn; destruct l2; set_solver|].
  induction l2 as [|y l2 IH2]; [rewrite set_union_nil_r; set_solver|]. rewrite set_union_cons.
  destruct (path_cases x y) as [[-> ->]|[[-> _]|[-> _]]]; rewrite elem_of_cons; [rewrite IH|rewrite IH|rewrite IH2]; set_solver.
Qed.

Lemma set_union_spec l1 l2 : psorted l1 -> psorted l2 ->
  psorted (set_union l1 l2) /\ forall p, p ∈ set_union l1 l2 <-> p ∈ l1 \/ p ∈ l2.
Proof.
  intros H1. revert l2. induction H1 as [|x l1 H1 IH HF1]; intros l2 H2.
  { cbn. destruct l2; (split; [done|set_solver]). }
  induction H2 as [|y l2 H2 IH2 HF2].
  { cbn. split; [by constructor|set_solver]. }
  rewrite set_union_cons. destruct (path_cases x y) as [[-> ->]|[[-> Hlt]|[-> Hlt]]].
  - destruct (IH l2 H2) as [Ha Hb]. split.
    + constructor; [done|]. apply Forall_forall. intros p Hp. apply Hb in Hp as [Hp|Hp];
        [rewrite Forall_forall in HF1; by apply HF1|rewrite Forall_forall in HF2; by apply HF2].
    + intros p. rewrite elem_of_cons, Hb. set_solver.
  - destruct (IH (y :: l2)) as [Ha Hb]; [by constructor|]. split.
    + constructor; [done|]. apply Forall_forall. intros p Hp. apply Hb in Hp as [Hp|Hp].
      * rewrite Forall_forall in HF1; by apply HF1.
      * apply elem_of_cons in Hp as [->|Hp]; [done|]. rewrite Forall_forall in HF2. eapply plt_trans; [done|by apply HF2].
    + intros p. rewrite elem_of_cons, Hb. set_solver.
  - destruct IH2 as [Ha Hb]. split.
    + constructor; [done|]. apply Forall_forall. intros p Hp. apply Hb in Hp as [Hp|Hp].
      * apply elem_of_cons in Hp as [->|Hp]; [done|]. rewrite Forall_forall in HF1. eapply plt_trans; [done|by apply HF1].
      * rewrite Forall_forall in HF2; by apply HF2.
    + intros p. rewrite elem_of_cons, Hb. set_solver.
Qed.

Lemma set_difference_cons x l1 y l2 : set_difference (x :: l1) (y :: l2) =
  match path_compare x y with
  | Lt => x :: set_difference l1 (y :: l2) | Gt => set_difference (x :: l1) l2 | Eq => set_difference l1 l2 end.
Proof. done. Qed.

Lemma set_difference_sub l1 l2 p : p ∈ set_difference l1 l2 -> p ∈ l1.
Proof.
  revert l2. induction l1 as [|x l1 IH]; intros l2; [cbn; by destruct l2|].
  induction l2 as [|y l2 IH2]; [done|]. rewrite set_difference_cons.
  destruct (path_compare x y); [intros ?%IH; by right| |exact IH2]. rewrite elem_of_cons. intros [-> |?%IH]; [left|by right].
Qed.

Lemma set_difference_spec l1 l2 : psorted l1 -> psorted l2 ->
  psorted (set_difference l1 l2) /\ forall p, p ∈ set_difference l1 l2 <-> p ∈ l1 /\ p ∉ l2.
Proof.
  intros H1. revert l2. induction H1 as [|x l1 H1 IH HF1]; intros l2 H2.
  { cbn. destruct l2; (split; [constructor|set_solver]). }
  induction H2 as [|y l2 H2 IH2 HF2].
  { cbn. split; [by constructor|set_solver]. }
  rewrite set_difference_cons. destruct (path_cases x y) as [[-> ->]|[[-> Hlt]|[-> Hlt]]].
  - destruct (IH l2 H2) as [Ha Hb]. split; [done|]. intros p. rewrite Hb.
    apply plt_not_in in HF1. split; [|set_solver]. intros [Hp Hq]. split; [set_solver|]. rewrite not_elem_of_cons. split; [|done].
    by intros ->.
  - destruct (IH (y :: l2)) as [Ha Hb]; [by constructor|]. split.
    + constructor; [done|]. apply Forall_forall. intros p Hp. apply Hb in Hp as [Hp _].
      rewrite Forall_forall in HF1; by apply HF1.
    + intros p. rewrite !elem_of_cons, Hb. split; [|set_solver].
      intros [->|Hp]; [|set_solver]. split; [by left|]. intros [->|Hp].
      * by apply (plt_irrefl y).
      * rewrite Forall_forall in HF2. apply (plt_irrefl x). eapply plt_trans; [done|by apply HF2].
  - destruct IH2 as [Ha Hb]. split; [done|]. intros p. rewrite Hb. split; [|set_solver].
    intros [Hp Hq]. split; [done|]. rewrite not_elem_of_cons. split; [|done].
    intros ->. apply elem_of_cons in Hp as [->|Hp]; [by apply (plt_irrefl x)|].
    rewrite Forall_forall in HF1. apply (plt_irrefl y). eapply plt_trans; [done|by apply HF1].
Qed.

Lemma set_intersection_cons x l1 y l2 : set_intersection (x :: l1) (y :: l2) =
  match path_compare x y with
  | Lt => set_intersection l1 (y :: l2) | Gt => set_intersection (x :: l1) l2 | Eq => x :: set_intersection l1 l2 end.
Proof. done. Qed.

Lemma set_intersection_spec l1 l2 : psorted l1 -> psorted l2 ->
  psorted (set_intersection l1 l2) /\ forall p, p ∈ set_intersection l1 l2 <-> p ∈ l1 /\ p ∈ l2.
Proof.
  intros H1. revert l2. induction H1 as [|x l1 H1 IH HF1]; intros l2 H2.
  { cbn. destruct l2; (split; [constructor|set_solver]). }
  induction H2 as [|y l2 H2 IH2 HF2].
  { cbn. split; [by constructor|set_solver]. }
  rewrite set_intersection_cons. destruct (path_cases x y) as [[-> ->]|[[-> Hlt]|[-> Hlt]]].
  - destruct (IH l2 H2) as [Ha Hb]. split.
    + constructor; [done|]. apply Forall_forall. intros p Hp. apply Hb in Hp as [Hp _]. rewrite Forall_forall in HF1; by apply HF1.
    + intros p. rewrite !elem_of_cons, Hb. apply plt_not_in in HF1. apply plt_not_in in HF2. set_solver.
  - destruct (IH (y :: l2)) as [Ha Hb]; [by constructor|]. split; [done|]. intros p. rewrite Hb. split; [set_solver|].
    intros [Hp Hq]. split; [|done]. apply elem_of_cons in Hp as [->|Hp]; [|done]. exfalso.
    apply elem_of_cons in Hq as [->|Hq]; [by apply (plt_irrefl y)|].
    rewrite Forall_forall in HF2. apply (plt_irrefl x). eapply plt_trans; [done|by apply HF2].
  - destruct IH2 as [Ha Hb]. split; [done|]. intros p. rewrite Hb. split; [set_solver|].
    intros [Hp Hq]. split; [done|]. apply elem_of_cons in Hq as [->|Hq]; [|done]. exfalso.
    apply elem_of_cons in Hp as [->|Hp]; [by apply (plt_irrefl x)|].
    rewrite Forall_forall in HF1. apply (plt_irrefl y). eapply plt_trans; [done|by apply HF1].
Qed.

Lemma sort_psorted l : NoDup l -> psorted (sort_by path_compare l).
Proof. apply (sort_by_strict path_total). Qed.

Lemma unique_cons x y l : unique (x :: y :: l) = if decide (x = y) then unique (y :: l) else x :: unique (y :: l).
Proof. done. Qed.

Lemma unique_spec l : StronglySorted (le_by (cmp := path_compare)) l -> psorted (unique l) /\ forall p, p ∈ unique l <-> p ∈ l.
Proof.
  induction 1 as [|x l Hs IH HF]; [split; [constructor|done]|]. destruct l as [|y l].
  { split; [repeat constructor|done]. }
  destruct IH as [Ha Hb]. rewrite unique_cons. destruct (decide (x = y)) as [->|Hxy].
  - split; [done|]. intros p. rewrite Hb. set_solver.
  - split.
    + constructor; [done|]. apply Forall_forall. intros p Hp. apply Hb in Hp.
      assert (plt x y) as Hlt.
      { apply Forall_cons in HF as [HF _]. unfold le_by in HF. destruct (path_cases x y) as [[_ H]|[[_ H]|[H1 H2]]]; [done..|]. done. }
      apply elem_of_cons in Hp as [->|Hp]; [done|]. apply StronglySorted_inv in Hs as [_ HF2].
      rewrite Forall_forall in HF2. specialize (HF2 p Hp). unfold le_by in HF2.
      destruct (path_cases y p) as [[_ <-]|[[_ H]|[H1 H2]]]; [done|by eapply plt_trans|done].
    + intros p. rewrite !elem_of_cons, Hb. set_solver.
Qed.

(** ** Files *)

Lemma split_slash_no w : Forall (fun c => c <> slash) w -> split_slash w = [w].
Proof.
  induction 1 as [|c w Hc _ IH]; [done|]. cbn. rewrite decide_False by done. by rewrite IH.
Qed.

Lemma split_slash_app w s : Forall (fun c => c <> slash) w -> split_slash (w ++ slash :: s) = w :: split_slash s.
Proof.
  induction 1 as [|c w Hc _ IH]; cbn [app split_slash]; [by rewrite decide_True|]. rewrite decide_False by done. by rewrite IH.
Qed.

Lemma plain_slash w : plain_element w -> Forall (fun c => c <> slash) w.
Proof. intros [_ H]. eapply Forall_impl; [exact H|]. by intros c []. Qed.

Lemma to_path_generic p : Forall plain_element p -> p <> [] -> to_path (generic_string p) = p.
Proof.
  intros HF Hne. unfold to_path.
  assert (split_slash (generic_string p) = p) as ->.
  { induction HF as [|w p Hw HF IH]; [done|]. destruct p as [|v p].
    - cbn [generic_string]. by apply split_slash_no, plain_slash.
    - change (generic_string (w :: v :: p)) with (w ++ slash :: generic_string (v :: p)).
      rewrite split_slash_app by (by apply plain_slash). by rewrite IH. }
  clear Hne. induction HF as [|w p [Hw _] _ IH]; [done|]. cbn. rewrite IH. by destruct w.
Qed.

Definition unspaced (s : text) : Prop := Forall (fun c => is_space c = false) s.

Lemma generic_unspaced p : Forall plain_element p -> unspaced (generic_string p).
Proof.
  induction 1 as [|w p [_ Hw] HF IH]; [constructor|].
  assert (unspaced w) as Hw' by (eapply Forall_impl; [exact Hw|]; by intros c []).
  destruct p as [|v p]; [done|].
  change (generic_string (w :: v :: p)) with (w ++ slash :: generic_string (v :: p)).
  apply Forall_app. split; [done|]. by constructor.
Qed.

Lemma take_word_unspaced w c s : unspaced w -> is_space c = true -> take_word (w ++ c :: s) = (w, c :: s).
Proof.
  intros Hw Hc. induction Hw as [|d w Hd _ IH]; cbn [app take_word]; [by rewrite Hc|]. by rewrite Hd, IH.
Qed.

Lemma from_last_none w dir : w ∉ dir -> from_last w dir = [].
Proof.
  induction dir as [|d dir IH]; intros H; [done|]. rewrite not_elem_of_cons in H. destruct H as [H1 H2].
  cbn. rewrite IH by done. by rewrite decide_False.
Qed.

Lemma rebase_good repo p : repo <> [] -> good_path repo p -> rebase_from p repo = Ok p.
Proof.
  intros Hr Hp. destruct p as [|w p]; [done|]. destruct Hp as (HF&_&Hup&Hrepo).
  unfold rebase_from. destruct repo as [|r repo]; [done|]. cbn [drop_up]. rewrite decide_False by done.
  apply Forall_cons in HF as [[Hw _] _]. destruct w as [|c w]; [done|]. rewrite from_last_none by done. done.
Qed.

Lemma read_loop_good repo fuel : forall l pre acc t, repo <> [] -> Forall (good_path repo) l ->
  (pre = [] \/ pre = [nl]) -> write_tests repo l = Ok t -> length l < fuel ->
  read_tests_loop fuel (pre ++ t) acc = Ok (acc ++ l).
Proof.
  induction fuel as [|fuel IH]; intros l pre acc t Hr HF Hpre Ht Hf; [lia|].
  destruct l as [|p l].
  { injection Ht as <-. rewrite app_nil_r. cbn. destruct Hpre as [->| ->]; cbn; by rewrite app_nil_r. }
  apply Forall_cons in HF as [Hp HF]. cbn [write_tests] in Ht. rewrite (rebase_good repo p Hr Hp) in Ht. cbn [rbind] in Ht.
  destruct (write_tests repo l) as [t'| | |] eqn:Et; try done. cbn [rbind] in Ht. injection Ht as <-.
  destruct p as [|w p]; [done|]. destruct Hp as (HFp&Hq&_&_).
  pose proof (generic_unspaced _ HFp) as Hu. pose proof (to_path_generic _ HFp ltac:(done)) as Hto.
  assert (exists c s, generic_string (w :: p) = c :: s /\ is_space c = false /\ c <> quote) as (c&s&E&Hc&Hcq).
  { apply Forall_cons in HFp as [[Hw HFw] _]. destruct w as [|c w]; [done|].
    exists c. destruct p as [|v p]; eexists; (split; [done|]); apply Forall_cons in HFw as [[_ Hc] _]; (split; [done|]); intros ->; done. }
  cbn [read_tests_loop].
  assert (skip_space (pre ++ generic_string (w :: p) ++ nl :: t') = generic_string (w :: p) ++ nl :: t') as ->.
  { destruct Hpre as [->| ->]; cbn [app skip_space]; rewrite E; cbn [app skip_space]; [by rewrite Hc|].
    change (is_space nl) with true. cbn iota. cbn [skip_space]. by rewrite Hc. }
  rewrite E. cbn [app]. rewrite decide_False by done.
  change (c :: s ++ nl :: t') with ((c :: s) ++ nl :: t'). rewrite <- E.
  rewrite take_word_unspaced by done. rewrite Hto.
  change (nl :: t') with ([nl] ++ t'). rewrite (IH l [nl] _ t'); [|done|done|by right|done|cbn [length] in Hf; lia].
  by rewrite <- app_assoc.
Qed.

Lemma write_tests_ok repo l : repo <> [] -> Forall (good_path repo) l -> exists t, write_tests repo l = Ok t /\ length l <= length t.
Proof.
  intros Hr. induction 1 as [|p l Hp _ (t&IH&Hl)]; [by exists []|]. cbn [write_tests].
  rewrite (rebase_good repo p Hr Hp). cbn [rbind]. rewrite IH. cbn [rbind]. eexists. split; [done|].
  rewrite !app_length. cbn [length]. lia.
Qed.

Lemma write_read repo l t acc : repo <> [] -> Forall (good_path repo) l -> write_tests repo l = Ok t -> read_tests (Some t) acc = Ok (acc ++ l).
Proof.
  intros Hr HF Ht. destruct (write_tests_ok repo l Hr HF) as (t'&Ht'&Hl). rewrite Ht in Ht'. injection Ht' as <-.
  unfold read_tests. change t with ([] ++ t) at 2. eapply read_loop_good; [done|done|by left|done|lia].
Qed.

(** ** Updates *)

(** The file holds exactly this sorted list of good paths. *)
Definition holds (repo : list text) (file : option text) (l : list (list text)) : Prop :=
  (forall acc, read_tests file acc = Ok (acc ++ l)) /\ psorted l /\ Forall (good_path repo) l.

Lemma holds_none repo : holds repo None [].
Proof. split; [intros acc; cbn; by rewrite app_nil_r|]. split; constructor. Qed.

Lemma holds_written repo l t : repo <> [] -> psorted l -> Forall (good_path repo) l -> write_tests repo l = Ok t -> holds repo (Some t) l.
Proof. intros Hr Hs HF Ht. split; [|done]. intros acc. by eapply write_read. Qed.

Lemma Forall_sub {A} (P : A -> Prop) l l' : Forall P l -> (forall x, x ∈ l' -> x ∈ l) -> Forall P l'.
Proof. rewrite !Forall_forall. eauto. Qed.

Lemma update_all_spec repo f failed time : repo <> [] -> NoDup failed -> Forall (good_path repo) failed ->
  exists f', update_all repo f failed time = Ok f' /\ holds repo (failures f') (sort_by path_compare failed) /\
    passes f' = None /\ stamp f' = Some time.
Proof.
  intros Hr Hd HF. unfold update_all.
  assert (Forall (good_path repo) (sort_by path_compare failed)) as HF' by (by rewrite sort_by_perm).
  destruct (write_tests_ok repo _ Hr HF') as (t&Ht&_). rewrite Ht. cbn [rbind].
  eexists. split; [done|]. cbn. split; [|done]. apply holds_written; [done|by apply sort_psorted|done|done].
Qed.

Lemma update_filtered_spec repo f executed failed F P : repo <> [] ->
  holds repo (failures f) F -> holds repo (passes f) P -> (forall p, p ∈ F -> p ∉ P) ->
  NoDup executed -> NoDup failed -> Forall (good_path repo) executed -> Forall (good_path repo) failed ->
  exists f' F' P', update_filtered repo f executed failed = Ok f' /\ stamp f' = stamp f /\
    holds repo (failures f') F' /\ holds repo (passes f') P' /\ (forall p, p ∈ F' -> p ∉ P') /\
    (forall p, p ∈ F' <-> p ∈ failed \/ (p ∈ F /\ p ∉ executed)) /\
    (forall p, p ∈ P' <-> (p ∈ executed /\ p ∉ failed) \/ (p ∈ P /\ p ∉ failed)).
Proof.
  intros Hr (HrF&HsF&HgF) (HrP&HsP&HgP) Hdisj Hde Hdf Hge Hgf.
  unfold update_filtered. rewrite HrP, HrF. cbn [rbind]. rewrite !app_nil_l.
  pose proof (sort_psorted _ Hde) as Hse. pose proof (sort_psorted _ Hdf) as Hsf.
  assert (forall p, p ∈ sort_by path_compare executed <-> p ∈ executed) as Hee by (intros p; by rewrite sort_by_perm).
  assert (forall p, p ∈ sort_by path_compare failed <-> p ∈ failed) as Hfe by (intros p; by rewrite sort_by_perm).
  set (ex := sort_by path_compare executed) in *. set (fa := sort_by path_compare failed) in *.
  destruct (set_union_spec ex P Hse HsP) as [Ht1 Ht2]. set (trial := set_union ex P) in *.
  destruct (set_difference_spec trial fa Ht1 Hsf) as [Hp1 Hp2]. set (ps := set_difference trial fa) in *.
  destruct (set_difference_spec F ps HsF Hp1) as [Hm1 Hm2]. set (rem := set_difference F ps) in *.
  destruct (set_union_spec rem fa Hm1 Hsf) as [Ha1 Ha2]. set (af := set_union rem fa) in *.
  assert (Forall (good_path repo) ps) as Hgps.
  { apply Forall_forall. intros p Hp. apply Hp2 in Hp as [Hp _]. apply Ht2 in Hp as [Hp|Hp].
    - apply Hee in Hp. rewrite Forall_forall in Hge. by apply Hge.
    - rewrite Forall_forall in HgP. by apply HgP. }
  assert (Forall (good_path repo) af) as Hgaf.
  { apply Forall_forall. intros p Hp. apply Ha2 in Hp as [Hp|Hp].
    - apply Hm2 in Hp as [Hp _]. rewrite Forall_forall in HgF. by apply HgF.
    - apply Hfe in Hp. rewrite Forall_forall in Hgf. by apply Hgf. }
  destruct (write_tests_ok repo af Hr Hgaf) as (tf&Htf&_). destruct (write_tests_ok repo ps Hr Hgps) as (tp&Htp&_).
  rewrite Htf. cbn [rbind]. rewrite Htp. cbn [rbind].
  assert (forall p, p ∈ ps <-> (p ∈ executed /\ p ∉ failed) \/ (p ∈ P /\ p ∉ failed)) as Hps.
  { intros p. rewrite Hp2, Ht2, Hee, Hfe. tauto. }
  assert (forall p, p ∈ af <-> p ∈ failed \/ (p ∈ F /\ p ∉ executed)) as Haf.
  { intros p. rewrite Ha2, Hm2, Hps, Hfe. pose proof (Hdisj p).
    destruct (decide (p ∈ failed)), (decide (p ∈ executed)); tauto. }
  eexists _, af, ps. split; [done|]. cbn. split; [done|].
  split; [by apply holds_written|]. split; [by apply holds_written|]. split; [|done].
  intros p. rewrite Haf, Hps. pose proof (Hdisj p). tauto.
Qed.

Lemma history_spec repo h : repo <> [] -> Forall (proper repo) h ->
  exists f F P, history repo h = Ok f /\ holds repo (failures f) F /\ holds repo (passes f) P /\
    (forall p, p ∈ F <-> failing h p) /\ (forall p, p ∈ P <-> passing h p) /\ (forall p, p ∈ F -> p ∉ P).
Proof.
  intros Hr. induction 1 as [|r h Hp _ (f&F&P&E&HF&HP&HiF&HiP&Hd)].
  - exists (mk_files None None None), [], []. split; [done|]. split; [apply holds_none|]. split; [apply holds_none|].
    split; [set_solver|]. split; set_solver.
  - cbn [history]. rewrite E. cbn [rbind]. destruct r as [failed time|executed failed]; cbn [update proper] in *.
    + destruct Hp as [Hd1 Hg]. destruct (update_all_spec repo f failed time Hr Hd1 Hg) as (f'&->&H1&H2&_).
      exists f', (sort_by path_compare failed), []. split; [done|]. split; [done|]. rewrite H2. split; [apply holds_none|].
      split; [intros p; by rewrite sort_by_perm|]. split; [cbn; set_solver|set_solver].
    + destruct Hp as (Hd1&Hd2&Hsub&Hg).
      assert (Forall (good_path repo) failed) as Hgf by (by eapply Forall_sub).
      destruct (update_filtered_spec repo f executed failed F P Hr HF HP Hd Hd1 Hd2 Hg Hgf) as (f'&F'&P'&->&_&H1&H2&H3&H4&H5).
      exists f', F', P'. split; [done|]. split; [done|]. split; [done|]. split; [|split; [|done]].
      * intros p. cbn. by rewrite H4, HiF.
      * intros p. cbn. by rewrite H5, HiP.
Qed.

Lemma holds_records repo file l (Q : list text -> Prop) : holds repo file l -> (forall p, p ∈ l <-> Q p) -> records file Q.
Proof.
  intros (H1&H2&_) HQ. exists l. split; [rewrite H1; done|]. split; [by apply psorted_NoDup|done].
Qed.

Lemma history_records repo h : repo <> [] -> Forall (proper repo) h ->
  exists f, history repo h = Ok f /\ records (failures f) (failing h) /\ records (passes f) (passing h) /\
    forall p, failing h p -> ~ passing h p.
Proof.
  intros Hr Hh. destruct (history_spec repo h Hr Hh) as (f&F&P&E&HF&HP&H1&H2&H3). exists f. split; [done|].
  split; [by eapply holds_records|]. split; [by eapply holds_records|]. intros p Hf Hp. by apply (H3 p); [apply H1|apply H2].
Qed.

(** ** Repetitions *)

(** The files of one repetition: those of a filtered run, or of a run of all tests, from nothing. *)
Lemma aggregate_failures_spec repo reps Fs : repo <> [] -> Forall2 (fun r F => holds repo (failures r) F) reps Fs ->
  exists l, aggregate_failures reps = Ok l /\ psorted l /\ Forall (good_path repo) l /\ forall p, p ∈ l <-> exists F, F ∈ Fs /\ p ∈ F.
Proof.
  intros Hr HF. unfold aggregate_failures.
  assert (forall acc, read_failures reps acc = Ok (acc ++ concat Fs)) as Hrd.
  { induction HF as [|r F reps Fs (H&_) _ IH]; intros acc; cbn [read_failures concat]; [by rewrite app_nil_r|].
    rewrite H. cbn [rbind]. by rewrite IH, <- app_assoc. }
  rewrite Hrd. cbn [rbind app].
  destruct (unique_spec (sort_by path_compare (concat Fs)) (sort_by_sorted path_total _)) as [H1 H2].
  assert (forall p, p ∈ unique (sort_by path_compare (concat Fs)) <-> exists F, F ∈ Fs /\ p ∈ F) as H3.
  { intros p. rewrite H2, sort_by_perm, elem_of_concat. naive_solver. }
  eexists. split; [done|]. split; [done|]. split; [|done].
  apply Forall_forall. intros p Hp. apply H3 in Hp as (F&HFin&Hp).
  clear -HF HFin Hp. induction HF as [|r F' reps Fs (_&_&H) _ IH]; [by apply elem_of_nil in HFin|].
  apply elem_of_cons in HFin as [->|HFin]; [|by apply IH]. rewrite Forall_forall in H. by apply H.
Qed.

Lemma intersect_passes_spec repo reps Ps : Forall2 (fun r P => passes r <> None /\ holds repo (passes r) P) reps Ps ->
  forall acc, psorted acc -> exists l, intersect_passes reps acc = Ok (Some l) /\ psorted l /\
    forall p, p ∈ l <-> p ∈ acc /\ forall P, P ∈ Ps -> p ∈ P.
Proof.
  induction 1 as [|r P reps Ps (Hne&Hrd&Hs&_) _ IH]; intros acc Hacc.
  - exists acc. split; [done|]. split; [done|]. set_solver.
  - cbn [intersect_passes]. destruct (passes r) as [s|]; [|done]. rewrite Hrd. cbn [rbind app].
    destruct (set_intersection_spec P acc Hs Hacc) as [H1 H2].
    destruct (IH _ H1) as (l&->&Hl1&Hl2). exists l. split; [done|]. split; [done|].
    intros p. rewrite Hl2, H2. set_solver.
Qed.

Lemma aggregate_passes_spec repo reps Ps : reps <> [] -> Forall2 (fun r P => passes r <> None /\ holds repo (passes r) P) reps Ps ->
  exists l, aggregate_passes reps = Ok (Some l) /\ psorted l /\ forall p, p ∈ l <-> forall P, P ∈ Ps -> p ∈ P.
Proof.
  intros Hne HF. destruct HF as [|r P reps Ps (Hn&Hrd&Hs&_) HF]; [done|]. cbn [aggregate_passes].
  destruct (passes r) as [s|]; [|done]. rewrite Hrd. cbn [rbind app].
  destruct (intersect_passes_spec repo reps Ps HF P Hs) as (l&->&H1&H2). exists l. split; [done|]. split; [done|].
  intros p. rewrite H2. set_solver.
Qed.

Lemma aggregate_none reps1 r reps2 : Forall (fun r => exists s l, passes r = Some s /\ read_tests (Some s) [] = Ok l) reps1 -> passes r = None ->
  aggregate_passes (reps1 ++ r :: reps2) = Ok None.
Proof.
  intros HF Hn. destruct HF as [|r1 reps1 (s&l&Hs&Hl) HF]; cbn [app aggregate_passes]; [by rewrite Hn|].
  rewrite Hs, Hl. cbn [rbind]. generalize l. clear Hl.
  induction HF as [|r2 reps1 (s2&l2&Hs2&Hl2) HF IH]; intros acc; cbn [app intersect_passes]; [by rewrite Hn|].
  rewrite Hs2, Hl2. cbn [rbind]. apply IH.
Qed.

Lemma aggregate_spec repo f F P time rs reps : repo <> [] -> rs <> [] ->
  holds repo (failures f) F -> holds repo (passes f) P -> (forall p, p ∈ F -> p ∉ P) ->
  Forall (fun r => proper repo (Some_ (fst r) (snd r))) rs ->
  Forall2 (fun r g => repetition repo r = Ok g) rs reps ->
  exists f' F' P', aggregate repo false f reps time = Ok f' /\ holds repo (failures f') F' /\ holds repo (passes f') P' /\
    (forall p, p ∈ F' <-> (exists r, r ∈ rs /\ p ∈ snd r) \/
        (p ∈ F /\ (forall r, r ∈ rs -> p ∉ snd r) /\ exists r, r ∈ rs /\ p ∉ fst r)) /\
    (forall p, p ∈ P' <-> (forall r, r ∈ rs -> p ∉ snd r) /\ (p ∈ P \/ forall r, r ∈ rs -> p ∈ fst r)).
Proof.
  intros Hr Hne HF HP Hdisj Hprop Hreps.
  assert (exists Fs Ps, Forall2 (fun r F => holds repo (failures r) F) reps Fs /\
    Forall2 (fun r P => passes r <> None /\ holds repo (passes r) P) reps Ps /\
    Forall2 (fun r F => forall p, p ∈ F <-> p ∈ snd r) rs Fs /\
    Forall2 (fun r P => forall p, p ∈ P <-> p ∈ fst r /\ p ∉ snd r) rs Ps) as (Fs&Ps&H1&H2&H3&H4).
  { clear -Hr Hprop Hreps. induction Hreps as [|r g rs reps Hg _ IH]; [exists [], []; repeat split; constructor|].
    apply Forall_cons in Hprop as [Hp Hprop]. destruct IH as (Fs&Ps&H1&H2&H3&H4); [done|].
    destruct Hp as (Hd1&Hd2&Hsub&Hgd).
    assert (Forall (good_path repo) (snd r)) as Hgf by (by eapply Forall_sub).
    destruct (update_filtered_spec repo (mk_files None None None) (fst r) (snd r) [] [] Hr (holds_none repo) (holds_none repo))
      as (f'&F'&P'&E&_&Ha&Hb&_&Hc&Hd); [set_solver|done|done|done|done|].
    unfold repetition in Hg. rewrite E in Hg. injection Hg as <-.
    exists (F' :: Fs), (P' :: Ps). split; [by constructor|]. split; [|split].
    - constructor; [|done]. split; [|done]. intros Hn. clear -E Hn Hr Hgd Hgf Hd1 Hd2.
      unfold update_filtered in E. cbn [passes failures read_tests rbind] in E.
      destruct (write_tests repo _) in E; try done. cbn [rbind] in E. destruct (write_tests repo _) in E; try done. cbn [rbind] in E.
      injection E as <-. done.
    - constructor; [|done]. intros p. rewrite Hc. set_solver.
    - constructor; [|done]. intros p. rewrite Hd. set_solver. }
  destruct (aggregate_failures_spec repo reps Fs Hr H1) as (fl&Efl&Hfl1&Hfl2&Hfl3).
  assert (reps <> []) as Hne2 by (destruct Hreps; done).
  destruct (aggregate_passes_spec repo reps Ps Hne2 H2) as (pl&Epl&Hpl1&Hpl2).
  assert (forall p, p ∈ fl <-> exists r, r ∈ rs /\ p ∈ snd r) as Hfl.
  { intros p. rewrite Hfl3. clear -H3. induction H3 as [|r F rs Fs H _ IH]; [set_solver|]. 
    split.
    - intros (F'&HF'&Hp). apply elem_of_cons in HF' as [->|HF']; [exists r; split; [set_solver|by apply H]|].
      destruct (proj1 IH) as (r'&Hr'&Hp'); [eauto|]. exists r'. set_solver.
    - intros (r'&Hr'&Hp). apply elem_of_cons in Hr' as [->|Hr']; [exists F; split; [set_solver|by apply H]|].
      destruct (proj2 IH) as (F'&HF'&Hp'); [eauto|]. exists F'. set_solver. }
  assert (forall p, p ∈ pl <-> forall r, r ∈ rs -> p ∈ fst r /\ p ∉ snd r) as Hpl.
  { intros p. rewrite Hpl2. clear -H4. induction H4 as [|r P rs Ps H _ IH]; [set_solver|]. 
    split.
    - intros HH r' Hr'. apply elem_of_cons in Hr' as [->|Hr']; [apply H, HH; set_solver|]. apply (proj1 IH); [|done]. set_solver.
    - intros HH P' HP'. apply elem_of_cons in HP' as [->|HP']; [apply H, HH; set_solver|]. apply (proj2 IH); [|done]. set_solver. }
  unfold aggregate. rewrite Efl. cbn [rbind]. rewrite Epl. cbn [rbind].
  destruct (update_filtered_spec repo f (pl ++ fl) fl F P Hr HF HP Hdisj) as (f'&F'&P'&E&_&Ha&Hb&_&Hc&Hd).
  - apply NoDup_app. split; [by apply psorted_NoDup|]. split; [|by apply psorted_NoDup].
    intros p Hp Hq. apply Hfl in Hq as (r&Hrs&Hq). by apply (proj2 (proj1 (Hpl p) Hp r Hrs)).
  - by apply psorted_NoDup.
  - apply Forall_app. split; [|done]. apply Forall_forall. intros p Hp. destruct rs as [|r rs]; [done|].
    destruct (proj1 (Hpl p) Hp r) as [Hq _]; [set_solver|]. apply Forall_cons in Hprop as [(_&_&_&Hg) _].
    rewrite Forall_forall in Hg. by apply Hg.
  - done.
  - exists f', F', P'. split; [done|]. split; [done|]. split; [done|]. split.
    + intros p. rewrite Hc, elem_of_app, Hfl, Hpl. split.
      * intros [H|[HpF Hn]]; [by left|right]. split; [done|]. split; [naive_solver|].
        assert (~ (forall r, r ∈ rs -> p ∈ fst r)) as Hnall by naive_solver.
        clear -Hnall. induction rs as [|r rs IH]; [by destruct Hnall; set_solver|].
        destruct (decide (p ∈ fst r)) as [Hin|Hin]; [|exists r; set_solver].
        destruct IH as (r'&Hr'&Hp'); [|exists r'; set_solver]. intros H. apply Hnall. intros r' Hr'. apply elem_of_cons in Hr' as [->|Hr']; auto.
      * intros [H|(HpF&Hall&(r&Hrin&Hpr))]; [by left|right]. split; [done|]. intros [H|H]; [by apply Hpr, H|].
        destruct H as (r'&Hr'&Hp'). by apply (Hall r').
    + intros p. rewrite Hd, elem_of_app, Hfl, Hpl. naive_solver.
Qed.

Lemma aggregate_history repo h f rs reps time : repo <> [] -> rs <> [] -> Forall (proper repo) h -> history repo h = Ok f ->
  Forall (fun r => proper repo (Some_ (fst r) (snd r))) rs ->
  Forall2 (fun r g => repetition repo r = Ok g) rs reps ->
  exists f', aggregate repo false f reps time = Ok f' /\
    records (failures f') (fun p => (exists r, r ∈ rs /\ p ∈ snd r) \/
        (failing h p /\ (forall r, r ∈ rs -> p ∉ snd r) /\ exists r, r ∈ rs /\ p ∉ fst r)) /\
    records (passes f') (fun p => (forall r, r ∈ rs -> p ∉ snd r) /\ (passing h p \/ forall r, r ∈ rs -> p ∈ fst r)).
Proof.
  intros Hr Hne Hh Hf Hp Hreps. destruct (history_spec repo h Hr Hh) as (f0&F&P&E&HF&HP&H1&H2&H3).
  rewrite Hf in E. injection E as <-.
  destruct (aggregate_spec repo f F P time rs reps Hr Hne HF HP H3 Hp Hreps) as (f'&F'&P'&E&HF'&HP'&Ha&Hb).
  exists f'. split; [done|]. split.
  - eapply holds_records; [done|]. intros p. by rewrite Ha, H1.
  - eapply holds_records; [done|]. intros p. by rewrite Hb, H2.
Qed.

Lemma repetition_ok repo r : repo <> [] -> proper repo (Some_ (fst r) (snd r)) -> exists g, repetition repo r = Ok g /\
  records (failures g) (fun p => p ∈ snd r) /\ records (passes g) (fun p => p ∈ fst r /\ p ∉ snd r).
Proof.
  intros Hr Hp. destruct (history_records repo [Some_ (fst r) (snd r)] Hr) as (f&E&H1&H2&_); [by constructor|].
  exists f. split; [done|]. destruct H1 as (l1&E1&N1&H1), H2 as (l2&E2&N2&H2).
  split; [exists l1|exists l2]; (split; [done|]); (split; [done|]).
  - intros p. rewrite H1. cbn. tauto.
  - intros p. rewrite H2. cbn. tauto.
Qed.
