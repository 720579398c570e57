From Coq Require Import Ascii String.
From stdpp Require Import list.
From Verif.Base Require Import Outcome ListLemmas.
From Verif.Text Require Import Model Spec Proofs.
From Verif.Log Require Import Model Spec.
From Verif.Throws Require Import Model Spec Proofs.
Local Open Scope list_scope.
Local Notation "⌜ s ⌝" := (list_ascii_of_string s%string).
Local Notation length := List.length.

(** C104: checks for exceptions. *)
Theorem C104_returns isa std_exception root E name description body e :
  exists b m es, check_exception_thrown isa std_exception root E name description body e = Ok (b, Scope m es) /\ (b = true <-> expected isa E e).
Proof.
  eexists _, _, _. rewrite check_spec. split; [reflexivity|]. exact (returns_spec isa std_exception root E name description body e _ _ (check_spec _ _ _ _ _ _ _ _)).
Qed.
Print Assumptions C104_returns.

Theorem C104_logged md isa std_exception root E name description body e m es b :
  check_exception_thrown isa std_exception root E name description body e = Ok (b, Scope m es) -> silent body ->
  exists st, run_test md [(m, es)] = Ok st /\
    top_level_checks (res_of st) = 1 /\ critical_failures (res_of st) = 0 /\
    deep_checks (res_of st) = S (count is_check (concat (map leaves body))) /\
    failures (res_of st) = (if b then 0 else 1) /\
    top_level_failures (res_of st) = (match md with FalseNegative => if b then 1 else 0 | _ => if b then 0 else 1 end) /\
    length (caught_exception_messages (res_of st)) = (if b then 1 else 0).
Proof. exact (logged_spec isa std_exception md root E name description body e m es b). Qed.
Print Assumptions C104_logged.

Theorem C104_bases isa std_exception root E F name description body e m es :
  (forall c d f, isa c d = true -> isa d f = true -> isa c f = true) -> isa E F = true ->
  check_exception_thrown isa std_exception root E name description body e = Ok (true, Scope m es) ->
  exists es', check_exception_thrown isa std_exception root F name description body e = Ok (true, Scope m es').
Proof. exact (bases_pass isa std_exception root E F name description body e m es). Qed.
Print Assumptions C104_bases.

(** What is recorded of the exception *)
Theorem C104_recorded isa std_exception root E name description body t :
  isa (cls t) E = true ->
  exists m, check_exception_thrown isa std_exception root E name description body (Throws t) =
    Ok (true, Scope m (Check :: body ++ [Caught (postprocessed root (if isa E std_exception then what t else serialized t E))])).
Proof. exact (recorded_spec isa std_exception root E name description body t). Qed.
Print Assumptions C104_recorded.

Theorem C104_message_partial root before file end_ : absolute root -> "/"%char ∉ before ->
  postprocessed root (mentioning root [(before, file)] end_) = relative [(before, file)] end_.
Proof. exact (once root before file end_). Qed.
Print Assumptions C104_message_partial.
(** The first mention, whatever follows *)
Theorem C104_message_first root parts end_ before file : absolute root -> "/"%char ∉ before ->
  postprocessed root (mentioning root ((before, file) :: parts) end_) = before ++ file ++ mentioning root parts end_.
Proof. exact (every root parts end_ before file). Qed.
Print Assumptions C104_message_first.
Theorem C104_message_kept root m : ~ occurs root m -> postprocessed root m = m.
Proof. exact (not_mentioned root m). Qed.
Print Assumptions C104_message_kept.

(** The check returns that it passed although one within it failed. *)
Theorem C104_result_refuted :
  exists isa std_exception root E name description body e m es st,
    check_exception_thrown isa std_exception root E name description body e = Ok (true, Scope m es) /\
    run_test Standard [(m, es)] = Ok st /\ top_level_failures (res_of st) = 1.
Proof.
  eexists Nat.eqb, 0, [], 0, [], [], [Scope [] [Check; Fail []]], (Throws (Thrown 0 [] (fun _ => []))), _, _, _.
  split; [vm_compute; reflexivity|]. split; [vm_compute; reflexivity|]. vm_compute. reflexivity.
Qed.
Print Assumptions C104_result_refuted.

(** What is recorded depends on where the project is if it mentions two files of it. *)
Theorem C104_where_refuted :
  exists root root' parts end_, absolute root /\ absolute root' /\ Forall (fun p => "/"%char ∉ fst p) parts /\
    postprocessed root (mentioning root parts end_) <> postprocessed root' (mentioning root' parts end_).
Proof.
  exists ⌜"/home/me/project"⌝, ⌜"/home/you/project"⌝, [(⌜"cannot copy ["⌝, ⌜"a.txt"⌝); (⌜"] ["⌝, ⌜"b.txt"⌝)], ⌜"]"⌝.
  split; [by eexists|]. split; [by eexists|]. split; [|vm_compute; congruence].
  repeat (apply Forall_cons_2; [apply (bool_decide_unpack _); by vm_compute|]). by apply Forall_nil_2.
Qed.
Print Assumptions C104_where_refuted.

(** The name of a folder which begins like that of the project is cut. *)
Theorem C104_folder_refuted :
  exists root m, absolute root /\ ~ (exists a b, m = a ++ root ++ "/"%char :: b) /\ postprocessed root m <> m.
Proof.
  exists ⌜"/home/me/project"⌝, ⌜"/home/me/projects.txt is missing"⌝. split; [by eexists|]. split; [|vm_compute; congruence].
  intros (a & b & E). assert (occurs ⌜"/home/me/project/"⌝ ⌜"/home/me/projects.txt is missing"⌝) as H; [|by apply find_first_None in H; [|vm_compute; reflexivity]].
  exists (length a), a, b. split; [|done]. rewrite E. reflexivity.
Qed.
Print Assumptions C104_folder_refuted.

(** *** The hypotheses can be met *)
(** 1, an error, is derived from 0; 2 is another type. *)
Definition Throws_isa (c d : nat) : bool := (c =? d) || ((c =? 1) && (d =? 0)).
Example C104_ex :
  let f E e := check_exception_thrown Throws_isa 0 ⌜"/home/me/project"⌝ E ⌜"[std::exception]"⌝ ⌜"Reading"⌝ [Scope ⌜"Before"⌝ [Check]] e in
  f 0 (Throws (Thrown 1 ⌜"No file /home/me/project/a.txt."⌝ (fun _ => []))) =
    Ok (true, Scope (⌜"Reading"⌝ ++ [nl] ++ ⌜"Expected Exception Type:"⌝ ++ [nl] ++ ⌜"[std::exception]"⌝) [Check; Scope ⌜"Before"⌝ [Check]; Caught ⌜"No file a.txt."⌝]) /\
  (exists ev, f 2 (Throws (Thrown 1 [] (fun _ => []))) = Ok (false, ev)) /\ (exists ev, f 0 Returns = Ok (false, ev)) /\
  silent [Scope ⌜"Before"⌝ [Check]] /\ Throws_isa 1 0 = true.
Proof.
  split; [vm_compute; reflexivity|]. split; [eexists; vm_compute; reflexivity|]. split; [eexists; vm_compute; reflexivity|].
  split; [|done]. intros x Hx. cbn in Hx. apply elem_of_list_singleton in Hx as ->. done.
Qed.
Example C104_message_ex : absolute ⌜"/home/me/project"⌝ /\ "/"%char ∉ ⌜"No file "⌝ /\ ~ occurs ⌜"/home/me/project"⌝ ⌜"No file a.txt."⌝.
Proof.
  split; [by eexists|]. split; [apply (bool_decide_unpack _); by vm_compute|]. intros H. by apply find_first_None in H; [|vm_compute; reflexivity].
Qed.
