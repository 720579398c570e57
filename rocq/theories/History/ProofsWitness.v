(** Histories in which something goes wrong, and one in which it does not. *)
From Coq Require Import Ascii String NArith.
From stdpp Require Import list list_numbers relations.
From Verif.Base Require Import Outcome ListLemmas.
From Verif.Text Require Import Model.
From Verif.Suite Require Import Model Spec.
From Verif.Prune Require Import Spec.
From Verif.Depend Require Import Model Spec ProofsWitness.
From Verif.Select Require Import Spec.
From Verif.History Require Import Model Spec ProofsFiles.
Local Notation length := List.length.
Local Notation "⌜ s ⌝" := (list_ascii_of_string s%string).

(** The two tests A.cpp and B.cpp, for which the compiler gives absolute paths; A.cpp includes a header. *)
Definition root : list text := [⌜"p"⌝; ⌜"t"⌝].
Definition short (t : bool) : list text := if t then [⌜"A.cpp"⌝] else [⌜"B.cpp"⌝].
Definition given (t : bool) : list text := absolute root ++ short t.
Definition files (a b z : N) : list (string * (N * list string)) :=
  [("/p/s/d/z.hpp", (z, [])); ("/p/t/A.cpp", (a, ["d/z.hpp"])); ("/p/t/B.cpp", (b, []))]%string.
Definition at_times (a b z x : N) : project :=
  let fs := files a b z in
  Project (P "/p/s") (P "/p/t") [] (map (fun x => P (fst x)) fs) (fun p => fst (assoc (0%N, []) fs p))
    (fun p => including (snd (assoc (0%N, []) fs p))) (fun p => if decide (p ∈ map (fun x => P (fst x)) fs) then Some p else None)
    (Some x) None None None (fun _ => None).
Definition run_of (w : project) (ts : list bool) (r : request) (p : bool -> bool) (s f : N) : event bool :=
  Event w [P "/p/t/A.cpp"; P "/p/t/B.cpp"] [SItems ⌜"suite"⌝ ts] r p s f.
Definition only (t : bool) : request := Chosen None (Some [short t]).

Notation proper := (proper_event cut root given short).

Lemma tests_of w ts r p s f t : has_test (run_of w ts r p s f) t <-> t ∈ ts.
Proof.
  unfold has_test. cbn [suites run_of]. split.
  - intros (su & ns & ->%elem_of_list_singleton & H). cbn in H. apply elem_of_list_In, in_map_iff in H as (x & E & Hx).
    injection E as -> _. by apply elem_of_list_In.
  - intros H. exists (SItems ⌜"suite"⌝ ts), [⌜"suite"⌝]. split; [by left|]. cbn. apply elem_of_list_In, in_map_iff. exists t. split; [done|]. by apply elem_of_list_In.
Qed.

Lemma at_nodes a b z x prune ns : make_nodes (at_times a b z x) prune = Ok ns ->
  exists p q r, ns = [Info (P "/p/t/A.cpp") a p; Info (P "/p/t/B.cpp") b q; Info (P "/p/s/d/z.hpp") z r].
Proof.
  intros H. exists (prune <? a)%N, (prune <? b)%N, (prune <? z)%N. unfold make_nodes in H.
  assert (add_files (at_times a b z x) prune (listing (at_times a b z x)) =
    if (x <=? z)%N then Throw RuntimeError else if (x <=? a)%N then Throw RuntimeError else if (x <=? b)%N then Throw RuntimeError else
    Ok [Info (P "/p/s/d/z.hpp") z (prune <? z)%N; Info (P "/p/t/A.cpp") a (prune <? a)%N; Info (P "/p/t/B.cpp") b (prune <? b)%N]) as E.
  { change (add_files (at_times a b z x) prune [P "/p/s/d/z.hpp"; P "/p/t/A.cpp"; P "/p/t/B.cpp"] =
    if (x <=? z)%N then Throw RuntimeError else if (x <=? a)%N then Throw RuntimeError else if (x <=? b)%N then Throw RuntimeError else
    Ok [Info (P "/p/s/d/z.hpp") z (prune <? z)%N; Info (P "/p/t/A.cpp") a (prune <? a)%N; Info (P "/p/t/B.cpp") b (prune <? b)%N]).
    cbn [add_files]. 
    replace (is_cpp (P "/p/s/d/z.hpp") || is_header (P "/p/s/d/z.hpp"))%bool with true by (by vm_compute).
    replace (is_cpp (P "/p/t/A.cpp") || is_header (P "/p/t/A.cpp"))%bool with true by (by vm_compute).
    replace (is_cpp (P "/p/t/B.cpp") || is_header (P "/p/t/B.cpp"))%bool with true by (by vm_compute).
    unfold make_info. change (executable (at_times a b z x)) with (Some x). cbv iota.
    replace (written (at_times a b z x) (P "/p/s/d/z.hpp")) with z by (by vm_compute).
    replace (written (at_times a b z x) (P "/p/t/A.cpp")) with a by (by vm_compute).
    replace (written (at_times a b z x) (P "/p/t/B.cpp")) with b by (by vm_compute).
    destruct (x <=? z)%N; [done|]. cbn [rbind]. destruct (x <=? a)%N; [done|]. cbn [rbind]. by destruct (x <=? b)%N. }
  rewrite E in H. destruct (x <=? z)%N; [done|]. destruct (x <=? a)%N; [done|]. destruct (x <=? b)%N; [done|]. cbn [rbind] in H. injection H as <-.
  generalize (prune <? z)%N, (prune <? a)%N, (prune <? b)%N. intros. by vm_compute.
Qed.

Lemma at_orderly a b z x : orderly (at_times a b z x) cut.
Proof.
  split; [concrete|]. intros prune ns (p & q & r & ->)%at_nodes. split; [apply paired_check_ok; by vm_compute|].
  intros u v _. apply (acyclic_link _ _ _ (height [2; 2; 1])). by vm_compute.
Qed.

Lemma run_proper a b z x ts r p s f : (s <= f)%N -> proper (run_of (at_times a b z x) ts r p s f).
Proof.
  intros Hle. split; [done|by vm_compute|apply at_orderly| |done|].
  - apply Forall_cons_2; [|apply Forall_cons_2; [|by constructor]]; [exists [⌜"A.cpp"⌝]|exists [⌜"B.cpp"⌝]]; (split; [done|]); (split; [concrete|by vm_compute]).
  - intros t _. split; [destruct t; concrete|]. split; [by destruct t|]. split; [destruct t; cbn; (split; [concrete|]); (split; [done|]); (split; [done|]); concrete|].
    split; [destruct t; concrete|]. constructor.
Qed.

(** Times of files are later, or the same. *)
Lemma at_edited t a b z x a' b' z' x' : (t < a')%N \/ a' = a -> (t < b')%N \/ b' = b -> (t < z')%N \/ z' = z ->
  edited t (at_times a b z x) (at_times a' b' z' x').
Proof.
  intros Ha Hb Hz. split; [done|done| |done|].
  - intros f Hf. change (listing (at_times a' b' z' x')) with [P "/p/s/d/z.hpp"; P "/p/t/A.cpp"; P "/p/t/B.cpp"] in Hf.
    change (f ∈ listing (at_times a b z x)) with (f ∈ [P "/p/s/d/z.hpp"; P "/p/t/A.cpp"; P "/p/t/B.cpp"]).
    rewrite !elem_of_cons in *. destruct Hf as [-> |[-> |[-> |[]%elem_of_nil]]].
    + destruct Hz as [Hz| ->]; [left|right]; [by vm_compute|]. split; [by left|done].
    + destruct Ha as [Ha| ->]; [left|right]; [by vm_compute|]. split; [by right; left|done].
    + destruct Hb as [Hb| ->]; [left|right]; [by vm_compute|]. split; [by right; right; left|done].
  - intros r y Hy. by left; apply elem_of_nil in Hy.
Qed.

(** Of two runs *)
Lemma run_next since a b z x ts r p s f a' b' z' x' ts' r' p' s' f' : let e := run_of (at_times a b z x) ts r p s f in
  ((f <=? s') && ((since e <? a') || (a' =? a)) && ((since e <? b') || (b' =? b)) && ((since e <? z') || (z' =? z)))%N%bool = true ->
  next since e (run_of (at_times a' b' z' x') ts' r' p' s' f').
Proof.
  intros e. rewrite !andb_true_iff, !orb_true_iff, !N.ltb_lt, !N.eqb_eq, N.leb_le. intros (((Ht & Ha) & Hb) & Hz). split; [done|]. by apply at_edited.
Qed.

Lemma run_new since w ts r p s f w' r' p' s' f' : new_files root short since (run_of w ts r p s f) (run_of w' ts r' p' s' f').
Proof. intros t Ht. left. apply tests_of in Ht. by apply tests_of. Qed.

(** What happens *)
Fixpoint kept (es : list (event bool)) : memory :=
  match es with
  | [] => Memory None None None
  | e :: es => match run cut given e (kept es) with Ok (_, m) => m | _ => Memory None None None end
  end.
Fixpoint plays (es : list (event bool)) (tss : list (list bool)) : bool :=
  match es, tss with
  | [], [] => true
  | e :: es, ts :: tss => match run cut given e (kept es) with Ok (ts', _) => bool_decide (ts' = ts) && plays es tss | _ => false end
  | _, _ => false
  end.

Lemma plays_happened es : forall tss, plays es tss = true -> happened cut given (zip es tss) (kept es).
Proof.
  induction es as [|e es IH]; intros [|ts tss]; cbn [plays zip zip_with kept]; intros H; try done; [constructor|].
  destruct (run cut given e (kept es)) as [[ts' m]| | |] eqn:E; try done. apply andb_true_iff in H as [->%bool_decide_eq_true H].
  econstructor; [by apply IH|done].
Qed.

Definition both : list bool := [true; false].
Definition everything (_ : bool) : bool := true.

(** A.cpp passes, B.cpp fails; z.hpp is changed, B.cpp corrected; both are executed, and pass; afterwards only B.cpp is executed. *)
Definition usual : list (event bool) :=
  [run_of (at_times 5 24 20 25) both Pruned everything 30 31; run_of (at_times 5 5 5 6) both Complete (fun t => t) 10 11].
Definition usual_last : event bool := run_of (at_times 5 24 20 25) both Pruned everything 40 41.

(** Both pass; A.cpp is executed alone; it is changed; B.cpp is executed alone. *)
Definition refreshed : list (event bool) :=
  [run_of (at_times 25 5 5 28) both (only false) everything 30 31; run_of (at_times 5 5 5 6) both (only true) everything 20 21;
   run_of (at_times 5 5 5 6) both Complete everything 10 11].
Definition refreshed_last : event bool := run_of (at_times 25 5 5 28) both Pruned everything 40 41.

(** Both pass; A.cpp is executed alone, passes, is executed again, and fails (it is changed in between); B.cpp is executed alone. *)
Definition forgotten : list (event bool) :=
  [run_of (at_times 25 5 5 28) both (only false) everything 40 41; run_of (at_times 25 5 5 28) both (only true) negb 30 31;
   run_of (at_times 5 5 5 6) both (only true) everything 20 21; run_of (at_times 5 5 5 6) both Complete everything 10 11].
Definition forgotten_last : event bool := run_of (at_times 25 5 5 28) both Pruned everything 50 51.

(** z.hpp is changed after the first run, and while A.cpp is being executed, in the second. *)
Definition meanwhile : list (event bool) :=
  [run_of (at_times 5 5 15 18) both Pruned everything 20 30; run_of (at_times 5 5 5 6) both Complete everything 10 11].
Definition meanwhile_last : event bool := run_of (at_times 5 5 25 35) both Pruned everything 40 41.

(** At first B.cpp is not in the suite. *)
Definition added : list (event bool) := [run_of (at_times 5 5 5 6) [true] Complete everything 10 11].
Definition added_last : event bool := run_of (at_times 5 5 5 35) both Pruned everything 40 41.

Ltac follow := first [apply proper_first; by apply run_proper |
  apply proper_next; [by apply run_proper|apply run_next; by vm_compute|first [exact I|apply run_new]|follow]].

Lemma usual_ok : happened cut given (zip usual [both; both]) (kept usual)
  /\ proper_history cut root given short finish (new_files root short) ((usual_last, [false]) :: zip usual [both; both])
  /\ Forall (fun x => not_chosen x.1) ((usual_last, [false]) :: zip usual [both; both])
  /\ exists m, run cut given usual_last (kept usual) = Ok ([false], m).
Proof.
  split; [apply plays_happened; vm_compute; reflexivity|]. split; [cbn [zip zip_with usual]; unfold usual_last|].
  { follow. }
  split; [by repeat constructor|]. eexists. vm_compute. reflexivity.
Qed.

Lemma at_current a b z x ts r p s f : (a < x)%N -> (b < x)%N -> (z < x)%N -> up_to_date (run_of (at_times a b z x) ts r p s f).
Proof.
  intros Ha Hb Hz y g Hy [Hg _]. injection Hy as <-. change (g ∈ [P "/p/s/d/z.hpp"; P "/p/t/A.cpp"; P "/p/t/B.cpp"]) in Hg.
  rewrite !elem_of_cons in Hg. by destruct Hg as [-> |[-> |[-> |[]%elem_of_nil]]]; vm_compute in *.
Qed.

Lemma at_needs a b z x : needs (at_times a b z x) cut (P "/p/t/A.cpp") (P "/p/s/d/z.hpp").
Proof.
  left. exists (P "d/z.hpp"). split; [eexists; split; [by vm_compute|concrete]|]. split; [split; [concrete|by left]|]. split; [split; [concrete|by right]|].
  split; [split; [by vm_compute|]; rewrite decide_False by concrete; left; by vm_compute|].
  intros g [Hg _] Hb [Hn _]. change (g ∈ [P "/p/s/d/z.hpp"; P "/p/t/A.cpp"; P "/p/t/B.cpp"]) in Hg.
  rewrite !elem_of_cons in Hg. destruct Hg as [-> |[-> |[-> |[]%elem_of_nil]]]; [|by vm_compute in Hn..].
  destruct Hb as [Hb|[_ Hb]]; by vm_compute in Hb.
Qed.

Ltac last_was l1 := exists l1; eexists _, _; split; [reflexivity|]; split; [concrete|concrete].

Lemma usual_repeats : let h := zip usual [both; both] in exists e0, last_execution h false e0 /\ passed e0 false = true
  /\ unchanged cut (world e0) (world usual_last) (absolute root ++ short false) (short false).
Proof.
  eexists. split; [last_was (@nil (event bool * list bool))|]. split; [done|]. apply unchanged_refl. concrete.
Qed.

Lemma refreshed_left : let h := zip refreshed [[false]; [true]; both] in
  leaves_out cut root given short finish (new_files root short) h refreshed_last true
  /\ exists e0, last_execution h true e0 /\ (finish e0 < written (world refreshed_last) (absolute root ++ short true))%N.
Proof.
  intros h. split.
  - exists (kept refreshed), []. eexists. split; [apply plays_happened; vm_compute; reflexivity|]. split; [unfold h; cbn [zip zip_with refreshed]; unfold refreshed_last; follow|].
    split; [done|]. split; [by apply at_current|]. split; [vm_compute; reflexivity|]. split; [apply tests_of; concrete|apply not_elem_of_nil].
  - eexists. split; [last_was [(run_of (at_times 25 5 5 28) both (only false) everything 30 31, [false])]|]. by vm_compute.
Qed.

Lemma forgotten_left : let h := zip forgotten [[false]; [true]; [true]; both] in
  leaves_out cut root given short finish (new_files root short) h forgotten_last true /\ exists e0, last_execution h true e0 /\ passed e0 true = false.
Proof.
  intros h. split.
  - exists (kept forgotten), []. eexists. split; [apply plays_happened; vm_compute; reflexivity|]. split; [unfold h; cbn [zip zip_with forgotten]; unfold forgotten_last; follow|].
    split; [done|]. split; [by apply at_current|]. split; [vm_compute; reflexivity|]. split; [apply tests_of; concrete|apply not_elem_of_nil].
  - eexists. split; [last_was [(run_of (at_times 25 5 5 28) both (only false) everything 40 41, [false])]|]. done.
Qed.

Lemma meanwhile_left : let h := zip meanwhile [[true]; both] in
  Forall (fun x => not_chosen x.1) h /\ leaves_out cut root given short start (new_files root short) h meanwhile_last true
  /\ exists e0 g, last_execution h true e0 /\ needs (world meanwhile_last) cut (absolute root ++ short true) g
       /\ (written (world e0) g < start e0 < written (world meanwhile_last) g)%N.
Proof.
  intros h. split; [by repeat constructor|]. split.
  - exists (kept meanwhile), []. eexists. split; [apply plays_happened; vm_compute; reflexivity|]. split; [unfold h; cbn [zip zip_with meanwhile]; unfold meanwhile_last; follow|].
    split; [done|]. split; [by apply at_current|]. split; [vm_compute; reflexivity|]. split; [apply tests_of; concrete|apply not_elem_of_nil].
  - eexists _, (P "/p/s/d/z.hpp"). split; [last_was (@nil (event bool * list bool))|]. split; [apply at_needs|]. by vm_compute.
Qed.

Lemma added_left : let h := zip added [[true]] in
  Forall (fun x => not_chosen x.1) h /\ leaves_out cut root given short finish (fun _ _ _ => True) h added_last false /\ Forall (fun x => false ∉ x.2) h.
Proof.
  intros h. split; [by repeat constructor|]. split; [|concrete].
  exists (kept added), []. eexists. split; [apply plays_happened; vm_compute; reflexivity|]. split; [unfold h; cbn [zip zip_with added]; unfold added_last; follow|].
  split; [done|]. split; [by apply at_current|]. split; [vm_compute; reflexivity|]. split; [apply tests_of; concrete|apply not_elem_of_nil].
Qed.

(** ** All together *)

Lemma usual_meets : named root /\ happened cut given (zip usual [both; both]) (kept usual)
  /\ proper_history cut root given short finish (new_files root short) ((usual_last, [false]) :: zip usual [both; both])
  /\ Forall (fun x => not_chosen x.1) ((usual_last, [false]) :: zip usual [both; both])
  /\ (exists m, run cut given usual_last (kept usual) = Ok ([false], m))
  /\ has_test usual_last true /\ true ∉ [false] /\ up_to_date usual_last.
Proof.
  split; [concrete|]. pose proof usual_ok as (H1 & H2 & H3 & H4). split; [exact H1|]. split; [exact H2|]. split; [exact H3|]. split; [exact H4|].
  clear. split; [apply tests_of; concrete|]. split; [concrete|by apply at_current].
Qed.

Lemma repeated : exists cutoff repo source rel h m (e : event bool) ts m' t e0,
  named repo /\ happened cutoff source h m /\ proper_history cutoff repo source rel finish (new_files repo rel) ((e, ts) :: h)
  /\ Forall (fun x => not_chosen x.1) ((e, ts) :: h) /\ run cutoff source e m = Ok (ts, m') /\ wish e = Pruned
  /\ t ∈ ts /\ last_execution h t e0 /\ passed e0 t = true /\ unchanged cutoff (world e0) (world e) (absolute repo ++ rel t) (rel t).
Proof.
  assert (named root) as H0 by concrete. assert (false ∈ [false]) as H8 by concrete.
  destruct usual_ok as (H1 & H2 & H3 & m' & H4). destruct usual_repeats as (e0 & H5 & H6 & H7).
  exists cut, root, given, short, (zip usual [both; both]), (kept usual), usual_last, [false], m', false, e0.
  split; [exact H0|]. split; [exact H1|]. split; [exact H2|]. split; [exact H3|]. split; [exact H4|]. split; [reflexivity|].
  split; [exact H8|]. split; [exact H5|]. split; [exact H6|exact H7].
Qed.

Lemma chosen_change : exists cutoff repo source rel h (e : event bool) t e0,
  leaves_out cutoff repo source rel finish (new_files repo rel) h e t
  /\ last_execution h t e0 /\ (finish e0 < written (world e) (absolute repo ++ rel t))%N.
Proof. destruct refreshed_left as (H & e0 & H1 & H2). exists cut, root, given, short, (zip refreshed [[false]; [true]; both]), refreshed_last, true, e0. exact (conj H (conj H1 H2)). Qed.

Lemma chosen_failure : exists cutoff repo source rel h (e : event bool) t e0,
  leaves_out cutoff repo source rel finish (new_files repo rel) h e t /\ last_execution h t e0 /\ passed e0 t = false.
Proof. destruct forgotten_left as (H & e0 & H1 & H2). exists cut, root, given, short, (zip forgotten [[false]; [true]; [true]; both]), forgotten_last, true, e0. exact (conj H (conj H1 H2)). Qed.

Lemma changed_meanwhile : exists cutoff repo source rel h (e : event bool) t e0 g,
  Forall (fun x => not_chosen x.1) h /\ leaves_out cutoff repo source rel start (new_files repo rel) h e t
  /\ last_execution h t e0 /\ needs (world e) cutoff (absolute repo ++ rel t) g
  /\ (written (world e0) g < start e0 < written (world e) g)%N.
Proof. destruct meanwhile_left as (H0 & H & e0 & g & H1 & H2). exists cut, root, given, short, (zip meanwhile [[true]; both]), meanwhile_last, true, e0, g. exact (conj H0 (conj H (conj H1 H2))). Qed.

Lemma newly_added : exists cutoff repo source rel h (e : event bool) t,
  Forall (fun x => not_chosen x.1) h /\ h <> [] /\ leaves_out cutoff repo source rel finish (fun _ _ _ => True) h e t /\ Forall (fun x => t ∉ x.2) h.
Proof.
  assert (zip added [[true]] <> []) as Hn by (unfold added; cbn [zip zip_with]; discriminate).
  destruct added_left as (H0 & H & H1). exists cut, root, given, short, (zip added [[true]]), added_last, false. exact (conj H0 (conj Hn (conj H H1))).
Qed.
