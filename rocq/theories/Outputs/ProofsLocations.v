(** Proofs about the locations of files. *)
From Coq Require Import Ascii String.
From stdpp Require Import list gmap strings.
From Verif.Base Require Import Outcome Order ListLemmas.
From Verif.Text Require Import Model.
From Verif.SoftUpdate Require Model Proofs.
From Verif.Failure Require Model Proofs.
From Verif.Prune Require Model.
From Verif.Outputs Require Import Model Spec Proofs.
Local Open Scope res_scope.
Local Notation "⌜ s ⌝" := (list_ascii_of_string s%string).
Local Notation length := List.length.

Lemma plain_cons x p : plain (x :: p) <-> (x <> ⌜".."⌝ /\ x <> ⌜"/"⌝ /\ x <> []) /\ plain p.
Proof. unfold plain. by rewrite Forall_cons. Qed.

Lemma extend_plain p q : plain q -> extend p q = p ++ q.
Proof.
  intros H. unfold extend, is_absolute. rewrite bool_decide_false; [done|]. destruct q as [|x q]; [done|]. apply plain_cons in H as [(_&H&_) _].
  intros [= E]. by apply H.
Qed.
Lemma extend_all_plain q : forall p, plain q -> extend_all p q = p ++ q.
Proof.
  induction q as [|x q IH]; intros p H; [by rewrite app_nil_r|]. apply plain_cons in H as [Hx Hq]. unfold extend_all in *. cbn [fold_left].
  rewrite extend_plain by (apply plain_cons; split; [done|constructor]). rewrite IH by done. by rewrite <-app_assoc.
Qed.
Lemma extend_all_absolute q : plain q -> extend_all [] (root :: q) = root :: q.
Proof. intros H. unfold extend_all. cbn [fold_left]. change (extend [] [root]) with [root]. by apply (extend_all_plain q [root]). Qed.

Lemma drop_ups n p : plain p -> Verif.Prune.Model.drop_up (ups n ++ p) = p.
Proof.
  intros H. induction n as [|n IH]; [|exact IH]. cbn [ups replicate app]. destruct p as [|x p]; [done|]. apply plain_cons in H as [[H _] _].
  cbn [Verif.Prune.Model.drop_up]. by rewrite decide_False.
Qed.
Lemma strip_app p q r : Verif.Prune.Model.strip_common (p ++ q) (p ++ r) = Verif.Prune.Model.strip_common q r.
Proof. induction p as [|x p IH]; [done|]. cbn [app Verif.Prune.Model.strip_common]. by rewrite decide_True. Qed.
Lemma strip_nil p : Verif.Prune.Model.strip_common p [] = p.
Proof. by destruct p. Qed.
Lemma from_last_end w dir : Verif.Prune.Model.from_last w (dir ++ [w]) = [w].
Proof. induction dir as [|d dir IH]; cbn [app Verif.Prune.Model.from_last]; [by rewrite decide_True|by rewrite IH]. Qed.
Lemma not_absolute_ups n p : plain p -> is_absolute (ups n ++ p) = false.
Proof.
  intros H. apply bool_decide_false. destruct n as [|n]; [|done]. destruct p as [|x p]; [done|]. apply plain_cons in H as [(_&H&_) _].
  intros [= E]. by apply H.
Qed.
Lemma last_snoc {A} (p : list A) x : last (p ++ [x]) = Some x.
Proof. apply last_snoc. Qed.

(** ** What is reported *)
Theorem reported_relative n p repo : plain p -> path_for_reporting (ups n ++ p) repo = Ok p.
Proof. intros H. unfold path_for_reporting. rewrite not_absolute_ups by done. cbn [negb]. rewrite drop_ups by done. by rewrite (extend_all_plain p []). Qed.

Theorem reported_absolute r b rel : plain rel -> path_for_reporting (root :: r ++ b :: rel) (root :: r ++ [b]) = Ok (b :: rel).
Proof.
  intros H. unfold path_for_reporting. assert (is_absolute (root :: r ++ b :: rel) = true) as -> by done. cbn [negb].
  unfold back. assert (last (root :: r ++ [b]) = Some b) as -> by exact (last_snoc (root :: r) b). cbn [rbind].
  replace (root :: r ++ b :: rel) with ((root :: r ++ [b]) ++ rel) by (cbn [app]; by rewrite <-app_assoc).
  pose proof (strip_app (root :: r ++ [b]) rel []) as E. rewrite app_nil_r in E. rewrite E, strip_nil. by rewrite extend_all_plain.
Qed.

(** ** Summaries *)
Lemma replace_extension_app a rel ext : rel <> [] -> replace_extension (a ++ rel) ext = a ++ replace_extension rel ext.
Proof.
  intros H. destruct (exists_last H) as (b&x&->). unfold replace_extension. rewrite app_assoc.
  destruct ((a ++ b) ++ [x]) eqn:E1; [by apply app_nil in E1 as [_ ?]|]. rewrite <-E1. destruct (b ++ [x]) eqn:E2; [by apply app_nil in E2 as [_ ?]|]. rewrite <-E2.
  rewrite !removelast_last, !List.last_last. by rewrite app_assoc.
Qed.

Lemma stem_txt t : t <> [] -> Verif.SoftUpdate.Model.stem (t ++ ⌜".txt"⌝) = t /\ Verif.SoftUpdate.Model.extension (t ++ ⌜".txt"⌝) = ⌜".txt"⌝.
Proof.
  intros H. unfold Verif.SoftUpdate.Model.stem, Verif.SoftUpdate.Model.extension. change (⌜".txt"⌝) with (Verif.SoftUpdate.Model.dot :: ["t"; "x"; "t"]%char).
  rewrite (Verif.SoftUpdate.Proofs.last_dot_app t ["t"; "x"; "t"]%char); [by destruct t|]. apply (bool_decide_unpack _). by vm_compute.
Qed.

Lemma stem_of_nonempty rel : rel <> [] -> plain rel -> stem_of rel <> [].
Proof.
  intros H Hp. unfold stem_of. apply Verif.SoftUpdate.Proofs.stem_nonempty. destruct (exists_last H) as (b&x&->). rewrite List.last_last.
  apply Forall_app in Hp as [_ Hp]. rewrite Forall_singleton in Hp. tauto.
Qed.

(** The name of the file, for any source *)
Lemma name_spec a rel d : rel <> [] -> plain rel ->
  (let file := replace_extension (a ++ rel) ⌜".txt"⌝ in
   match d with
   | Some (c :: d') => removelast file ++ [Verif.SoftUpdate.Model.stem (List.last file []) ++ ⌜"_"⌝ ++ (c :: d')
                                       ++ Verif.SoftUpdate.Model.extension (List.last file [])]
   | _ => file
   end) = a ++ summary_name rel d.
Proof.
  intros H Hp. cbv zeta. rewrite replace_extension_app by done.
  assert (replace_extension rel ⌜".txt"⌝ = removelast rel ++ [stem_of rel ++ ⌜".txt"⌝]) as E by (unfold replace_extension; by destruct rel).
  rewrite E. unfold summary_name. destruct d as [[|c d]|]; cbn [discriminated]; try done.
  rewrite app_assoc, removelast_last, List.last_last. destruct (stem_txt (stem_of rel)) as [-> ->]; [by apply stem_of_nonempty|].
  by rewrite <-!app_assoc.
Qed.

Lemma summary_name_plain rel d : plain rel -> rel <> [] -> plain (summary_name rel d).
Proof.
  intros Hp H. unfold summary_name. pose proof (stem_of_nonempty rel H Hp) as Hs. destruct (exists_last H) as (b&x&->). rewrite removelast_last.
  apply Forall_app in Hp as [Hb _]. apply Forall_app. split; [done|]. apply Forall_singleton.
  assert (forall t, List.length t <= 3 -> stem_of (b ++ [x]) ++ discriminated d ++ ⌜".txt"⌝ <> t) as L.
  { intros t Ht E. apply (f_equal length) in E. rewrite !app_length in E. cbn in E. destruct (stem_of (b ++ [x])); [done|]. cbn in E. lia. }
  split; [|split]; apply L; cbn; lia.
Qed.
Lemma summary_name_cons rel d : exists x l, summary_name rel d = x :: l.
Proof. unfold summary_name. destruct (removelast rel); cbn; eauto. Qed.

Definition tests : text := ⌜"Tests"⌝.
Theorem summary_relative project n rel d : rel <> [] -> plain rel ->
  summary_path project (ups n ++ tests :: rel) d = Ok (summaries_dir project ++ tests :: summary_name rel d).
Proof.
  intros H Hp. unfold summary_path. replace (ups n ++ tests :: rel) with ((ups n ++ [tests]) ++ rel) by by rewrite <-app_assoc.
  destruct ((ups n ++ [tests]) ++ rel) eqn:E0; [by apply app_nil in E0 as [_ ?]|]. rewrite <-E0. cbv zeta.
  pose proof (name_spec (ups n ++ [tests]) rel d H Hp) as E. cbv zeta in E. rewrite E. rewrite <-app_assoc. cbn [app].
  assert (plain (tests :: summary_name rel d)) as Hpl by (apply plain_cons; split; [done|by apply summary_name_plain]).
  rewrite not_absolute_ups by done. cbn [negb]. unfold back. rewrite last_snoc. cbn [rbind]. unfold Verif.Prune.Model.rebase_from.
  destruct (ups n ++ tests :: summary_name rel d) eqn:E1; [by apply app_nil in E1 as [_ ?]|]. rewrite <-E1.
  destruct (project ++ [⌜"Tests"⌝]) eqn:E2; [by apply app_nil in E2 as [_ ?]|]. rewrite <-E2. rewrite drop_ups by done.
  change tests with ⌜"Tests"⌝ at 1. cbn [list_ascii_of_string]. 
  change ["T"; "e"; "s"; "t"; "s"]%char with tests. change ⌜"Tests"⌝ with tests. rewrite from_last_end. cbn [Verif.Prune.Model.strip_common].
  rewrite decide_True by done. rewrite strip_nil. cbn [rbind]. rewrite extend_plain by by apply summary_name_plain. by rewrite <-app_assoc.
Qed.

Theorem summary_absolute names rel d : plain names -> rel <> [] -> plain rel -> let project := root :: names in
  summary_path project (project ++ tests :: rel) d = Ok (summaries_dir project ++ tests :: summary_name rel d).
Proof.
  intros Hn H Hp project. unfold summary_path. replace (project ++ tests :: rel) with ((project ++ [tests]) ++ rel) by by rewrite <-app_assoc.
  destruct ((project ++ [tests]) ++ rel) eqn:E0; [by apply app_nil in E0 as [_ ?]|]. rewrite <-E0. cbv zeta.
  pose proof (name_spec (project ++ [tests]) rel d H Hp) as E. cbv zeta in E. rewrite E. rewrite <-app_assoc. cbn [app].
  assert (is_absolute (project ++ tests :: summary_name rel d) = true) as -> by done. cbn [negb]. unfold summaries_dir. rewrite strip_app.
  cbn [Verif.Prune.Model.strip_common]. rewrite decide_False by done. f_equal. apply extend_all_plain. apply plain_cons. split; [done|by apply summary_name_plain].
Qed.

Theorem summary_place names n rel d : plain names -> rel <> [] -> plain rel -> let project := root :: names in
  let p := project ++ [⌜"output"⌝; ⌜"TestSummaries"⌝; ⌜"Tests"⌝] ++ summary_name rel d in
  summary_path project (ups n ++ tests :: rel) d = Ok p /\ summary_path project (project ++ tests :: rel) d = Ok p.
Proof.
  intros Hn H Hp project p.
  assert (p = summaries_dir project ++ tests :: summary_name rel d) as -> by (unfold p, summaries_dir; by rewrite <-app_assoc).
  split; [by apply summary_relative|by apply summary_absolute].
Qed.

Theorem summary_name_inj rel rel' : summary_name rel None = summary_name rel' None -> removelast rel = removelast rel' /\ stem_of rel = stem_of rel'.
Proof. unfold summary_name. cbn [discriminated app]. intros H. apply app_inj_tail in H as [-> H]. by apply app_inv_tail in H. Qed.

(** ** Where a project is *)
Lemma split_build_spec r rest : build_name ∉ r -> split_build (r ++ build_name :: rest) = (r, build_name :: rest).
Proof.
  induction r as [|x r IH]; intros H; cbn [app split_build]; [by rewrite decide_True|]. rewrite not_elem_of_cons in H.
  rewrite decide_False by (intros E; symmetry in E; tauto). rewrite IH by tauto. done.
Qed.

Theorem discovered names r sub exe : plain r -> build_name ∉ r -> let project := root :: r in
  let dir := project ++ build_name :: sub in
  discover names (dir ++ [exe]) =
    (if decide (cache_name ∈ names dir) then Ok (project, dir ++ [cache_name])
     else if decide (cache_name ∈ names (removelast dir)) then Ok (project, removelast dir ++ [cache_name])
     else Throw RuntimeError).
Proof.
  intros Hr Hb project dir. unfold discover. replace (dir ++ [exe]) with (project ++ build_name :: (sub ++ [exe])) by (unfold dir; by rewrite <-app_assoc).
  rewrite split_build_spec by (apply not_elem_of_cons; split; [done|done]).
  replace (project ++ build_name :: (sub ++ [exe])) with (dir ++ [exe]) by (unfold dir; by rewrite <-app_assoc).
  unfold project at 1. destruct (sub ++ [exe]) eqn:E; [by apply app_nil in E as [_ ?]|]. rewrite removelast_last. unfold get_cmake_cache.
  unfold project; rewrite !bool_decide_decide. destruct (decide _); cbn [rbind]; [by rewrite extend_all_absolute|]. destruct (decide _); cbn [rbind]; [by rewrite extend_all_absolute|done].
Qed.

Lemma split_build_none p : build_name ∉ p -> split_build p = (p, []).
Proof.
  induction p as [|x p IH]; intros H; [done|]. cbn [split_build]. rewrite not_elem_of_cons in H.
  rewrite decide_False by (intros E; symmetry in E; tauto). rewrite IH by tauto. done.
Qed.
Theorem not_discovered names p : build_name ∉ p -> discover names p = Throw RuntimeError.
Proof. intros H. unfold discover. rewrite split_build_none by done. by destruct p. Qed.

(** ** Files for pruning *)
Lemma app_tail_differs {A} (a b c d : list A) : length c = length d -> a ++ c = b ++ d -> c = d.
Proof. intros H E. by apply app_inj_2 in E as [_ ?]. Qed.

Lemma ext_differs (e e' : text) (a b : text) x y : last e = Some x -> last e' = Some y -> x <> y -> a ++ e <> b ++ e'.
Proof.
  intros H1 H2 Hne E. apply last_Some in H1 as [l1 ->], H2 as [l2 ->]. rewrite !app_assoc in E. apply app_inj_tail in E as [_ ?]. done.
Qed.
Lemma failures_passes a b : a ++ ⌜".failures"⌝ <> b ++ ⌜".passes"⌝.
Proof.
  intros E. apply (f_equal (fun l => take 6 (rev l))) in E. rewrite !rev_app_distr in E. cbn in E. done.
Qed.

Theorem prune_paths_apart dir stem f f' : prune_path dir stem f = prune_path dir stem f' -> f = f'.
Proof.
  assert (forall x y z, dir ++ [x] <> dir ++ [y; z]) as L1 by (intros x y z E; apply app_inv_head in E; done).
  intros E. destruct f as [|[i|]|[i|]|], f' as [|[j|]|[j|]|]; cbn [prune_path make_path] in E; try done;
    try (by apply L1 in E); try (by symmetry in E; apply L1 in E).
  all: apply app_inv_head in E; injection E as E.
  all: try (apply app_inv_head in E; by vm_compute in E).
  all: apply app_inv_head in E.
  all: try (apply app_inv_tail in E; apply Verif.Failure.Proofs.decimal_inj in E; by subst).
  all: try (by apply failures_passes in E); try (by symmetry in E; apply failures_passes in E).
Qed.
