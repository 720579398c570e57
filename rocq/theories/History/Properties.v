(** C99: what pruning leaves out, over runs one after the other. *)
From Coq Require Import Ascii String NArith.
From stdpp Require Import list relations.
From Verif.Base Require Import Outcome.
From Verif.Text Require Import Model.
From Verif.Suite Require Import Model.
From Verif.Depend Require Import Model ProofsWitness.
From Verif.Select Require Import Spec.
From Verif.History Require Import Model Spec ProofsHistory ProofsWitness.

(** After any number of runs, complete or pruned, a run leaves out only tests the last execution of which passed, and for which
    nothing on which they depend has changed since. *)
Theorem C99_left_out_partial (T : Type) `{EqDecision T} cutoff repo source rel h m (e : event T) ts m' :
  named repo -> happened cutoff source h m -> proper_history cutoff repo source rel finish (new_files repo rel) ((e, ts) :: h) ->
  Forall (fun x => not_chosen x.1) ((e, ts) :: h) -> run cutoff source e m = Ok (ts, m') ->
  forall t, has_test e t -> t ∉ ts ->
  exists e0, last_execution h t e0 /\ passed e0 t = true /\ unchanged cutoff (world e0) (world e) (absolute repo ++ rel t) (rel t).
Proof. intros Hr. exact (further_run cutoff repo source rel Hr h m e ts m'). Qed.
Print Assumptions C99_left_out_partial.

(** The prune files never keep a run from working. *)
Theorem C99_runs_partial (T : Type) `{EqDecision T} cutoff repo source rel h m (e : event T) ts :
  named repo -> happened cutoff source h m -> proper_history cutoff repo source rel finish (new_files repo rel) ((e, ts) :: h) ->
  Forall (fun x => not_chosen x.1) ((e, ts) :: h) -> (wish e = Pruned -> up_to_date e) ->
  exists ts' m', run cutoff source e m = Ok (ts', m') /\ forall t, t ∈ ts' -> has_test e t.
Proof. intros Hr. exact (further_runs cutoff repo source rel Hr h m e ts). Qed.
Print Assumptions C99_runs_partial.

Example C99_example : named root /\ happened cut given (zip usual [both; both]) (kept usual)
  /\ proper_history cut root given short finish (new_files root short) ((usual_last, [false]) :: zip usual [both; both])
  /\ Forall (fun x => not_chosen x.1) ((usual_last, [false]) :: zip usual [both; both])
  /\ (exists m, run cut given usual_last (kept usual) = Ok ([false], m))
  /\ has_test usual_last true /\ true ∉ [false] /\ up_to_date usual_last.
Proof. exact usual_meets. Qed.

(** A test which passes, and for which nothing has changed, may be executed, too: once it has failed, until there is a complete run. *)
Theorem C99_repeated_refuted : exists cutoff repo source rel h m (e : event bool) ts m' t e0,
  named repo /\ happened cutoff source h m /\ proper_history cutoff repo source rel finish (new_files repo rel) ((e, ts) :: h)
  /\ Forall (fun x => not_chosen x.1) ((e, ts) :: h) /\ run cutoff source e m = Ok (ts, m') /\ wish e = Pruned
  /\ t ∈ ts /\ last_execution h t e0 /\ passed e0 t = true /\ unchanged cutoff (world e0) (world e) (absolute repo ++ rel t) (rel t).
Proof. exact repeated. Qed.
Print Assumptions C99_repeated_refuted.

(** Once tests have been chosen, a change may be missed, *)
Theorem C99_chosen_change_refuted : exists cutoff repo source rel h (e : event bool) t e0,
  leaves_out cutoff repo source rel finish (new_files repo rel) h e t
  /\ last_execution h t e0 /\ (finish e0 < written (world e) (absolute repo ++ rel t))%N.
Proof. exact chosen_change. Qed.
Print Assumptions C99_chosen_change_refuted.

(** and a test which fails be forgotten. *)
Theorem C99_chosen_failure_refuted : exists cutoff repo source rel h (e : event bool) t e0,
  leaves_out cutoff repo source rel finish (new_files repo rel) h e t /\ last_execution h t e0 /\ passed e0 t = false.
Proof. exact chosen_failure. Qed.
Print Assumptions C99_chosen_failure_refuted.

(** A change during a pruned run may be missed. *)
Theorem C99_meanwhile_refuted : exists cutoff repo source rel h (e : event bool) t e0 g,
  Forall (fun x => not_chosen x.1) h /\ leaves_out cutoff repo source rel start (new_files repo rel) h e t
  /\ last_execution h t e0 /\ needs (world e) cutoff (absolute repo ++ rel t) g
  /\ (written (world e0) g < start e0 < written (world e) g)%N.
Proof. exact changed_meanwhile. Qed.
Print Assumptions C99_meanwhile_refuted.

(** A test which is new to the suites, but not in a new file, is not executed. *)
Theorem C99_added_refuted : exists cutoff repo source rel h (e : event bool) t,
  Forall (fun x => not_chosen x.1) h /\ h <> [] /\ leaves_out cutoff repo source rel finish (fun _ _ _ => True) h e t /\ Forall (fun x => t ∉ x.2) h.
Proof. exact newly_added. Qed.
Print Assumptions C99_added_refuted.
