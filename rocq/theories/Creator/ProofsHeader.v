(** Proofs about the headers of nascent tests (C115). *)
From Coq Require Import Ascii String.
From stdpp Require Import list.
From Verif.Base Require Import Outcome ListLemmas.
From Verif.Text Require Import Model.
From Verif.Prune Require Model.
From Verif.Outputs Require Model.
From Verif.SoftUpdate Require Model Proofs.
From Verif.Select Require Import Model Spec Proofs.
From Verif.Creator Require Import ModelHeader SpecHeader.
Local Open Scope res_scope.
Local Notation "⌜ s ⌝" := (list_ascii_of_string s%string).
Local Notation length := List.length.

Lemma parts_model n s x : name_parts n s x -> SoftUpdate.Model.stem n = s /\ SoftUpdate.Model.extension n = x.
Proof.
  unfold SoftUpdate.Model.stem, SoftUpdate.Model.extension. intros [s' e Hs He|s' Hs|s' Hs].
  - change "."%char with SoftUpdate.Model.dot in *. rewrite (SoftUpdate.Proofs.last_dot_app s' e He). by destruct s'.
  - by rewrite (SoftUpdate.Proofs.last_dot_none s' Hs).
  - change "."%char with SoftUpdate.Model.dot in *. pose proof (SoftUpdate.Proofs.last_dot_app [] s' Hs) as E. cbn [app] in E. by rewrite E.
Qed.
Lemma parts_name n s x : name_parts n s x -> n = s ++ x.
Proof. intros [s' e Hs He|s' Hs|s' Hs]; [done|by rewrite app_nil_r|by rewrite app_nil_r]. Qed.

Lemma extension_parts d n s x : name_parts n s x -> extension_of (d ++ [n]) = x.
Proof. intros H. unfold extension_of. rewrite last_snoc. apply (parts_model n s x H). Qed.
Lemma replace_parts d n s x e : name_parts n s x -> Outputs.Model.replace_extension (d ++ [n]) e = d ++ [s ++ e].
Proof.
  intros H. unfold Outputs.Model.replace_extension. destruct (d ++ [n]) as [|y l] eqn:E; [by destruct d|]. rewrite <- E.
  rewrite removelast_last, List.last_last. by rewrite (proj1 (parts_model n s x H)).
Qed.

(** The search as one over the spellings *)
Fixpoint search (es cs : list path) : path :=
  match cs with
  | [] => []
  | c :: cs => match List.find (fun p => ends p c) es with Some (x :: p) => x :: p | _ => search es cs end
  end.

Lemma find_in_folder es c : c <> [] -> find_in_tree (Folder es) c = Ok (default [] (List.find (fun p => ends p c) es)).
Proof. by destruct c. Qed.

Lemma build_search es d n s x : name_parts n s x -> build_source_path (Folder es) (d ++ [n]) = Ok (search es (spellings d s x)).
Proof.
  intros H. unfold build_source_path. destruct (d ++ [n]) as [|y l] eqn:E; [by destruct d|]. rewrite <- E. clear y l E.
  rewrite find_in_folder by (by destruct d). cbn [rbind]. unfold spellings. cbn [search]. rewrite <- (parts_name n s x H).
  assert (Ht : forall exts, try_extensions (Folder es) (d ++ [n]) exts =
    Ok (search es (map (fun e => d ++ [s ++ e]) (List.filter (fun e => bool_decide (e <> x)) exts)))).
  { induction exts as [|e exts IH]; [done|]. cbn [try_extensions List.filter]. rewrite (extension_parts d n s x H).
    destruct (decide (e <> x)) as [He|He].
    - rewrite (replace_parts d n s x e H), find_in_folder by (by destruct d). cbn [rbind]. rewrite bool_decide_true by done. cbn [map search].
      destruct (List.find _ es) as [[|z p]|]; cbn [default]; [exact IH|done|exact IH].
    - rewrite bool_decide_false by done. exact IH. }
  destruct (List.find _ es) as [[|z p]|]; cbn [default]; [apply Ht|done|apply Ht].
Qed.

Lemma search_found es cs e : Forall (fun e => e <> []) es -> e <> [] -> search es cs = e <-> first_found es cs e.
Proof.
  intros Hes He. induction cs as [|c cs IH]; cbn [search].
  - split; [by intros <-|]. intros (l1 & c & l2 & E & _). by destruct l1.
  - destruct (List.find (fun p => ends p c) es) as [p|] eqn:E.
    + assert (p <> []) as Hp. { rewrite Forall_forall in Hes. apply Hes, elem_of_list_In. by apply List.find_some in E as [E _]. }
      destruct p as [|z p]; [done|]. apply find_first in E. split.
      * intros <-. exists [], c, cs. split; [done|]. split; [done|constructor].
      * intros ([|c' l1] & c1 & l2 & Ecs & Hf & Hl).
        -- injection Ecs as -> ->. apply find_first in E, Hf. congruence.
        -- injection Ecs as -> _. apply Forall_cons in Hl as [Hl _]. destruct E as (m1 & m2 & -> & Hs & _).
           unfold absent_in in Hl. rewrite Forall_app, Forall_cons in Hl. tauto.
    + apply find_none in E. rewrite IH. split.
      * intros (l1 & c1 & l2 & -> & Hf & Hl). exists (c :: l1), c1, l2. split; [done|]. split; [done|]. by constructor.
      * intros ([|c' l1] & c1 & l2 & Ecs & Hf & Hl).
        -- injection Ecs as -> ->. destruct Hf as (m1 & m2 & -> & Hs & _). rewrite Forall_app, Forall_cons in E. tauto.
        -- injection Ecs as -> ->. apply Forall_cons in Hl as [_ Hl]. by exists l1, c1, l2.
Qed.
Lemma search_none es cs : Forall (fun e => e <> []) es -> search es cs = [] <-> Forall (absent_in es) cs.
Proof.
  intros Hes. induction cs as [|c cs IH]; cbn [search]; [done|]. rewrite Forall_cons.
  destruct (List.find (fun p => ends p c) es) as [p|] eqn:E.
  - assert (p <> []) as Hp. { rewrite Forall_forall in Hes. apply Hes, elem_of_list_In. by apply List.find_some in E as [E _]. }
    destruct p as [|z p]; [done|]. split; [done|]. intros [H _]. apply find_none in H. congruence.
  - apply find_none in E. rewrite IH. unfold absent_in at 2. tauto.
Qed.

Lemma build_found es d n s x e : name_parts n s x -> Forall (fun e => e <> []) es -> e <> [] ->
  build_source_path (Folder es) (d ++ [n]) = Ok e <-> first_found es (spellings d s x) e.
Proof.
  intros H Hes He. rewrite (build_search es d n s x H). rewrite <- (search_found es _ e Hes He). split; [intros E; by injection E|by intros ->].
Qed.
Lemma build_missing es d n s x : name_parts n s x -> Forall (fun e => e <> []) es ->
  build_source_path (Folder es) (d ++ [n]) = Ok [] <-> Forall (absent_in es) (spellings d s x).
Proof.
  intros H Hes. rewrite (build_search es d n s x H). rewrite <- (search_none es _ Hes). split; [intros E; by injection E|by intros ->].
Qed.

(** ** Where the test is put *)
Lemma host_inside tests repo name r f :
  host_dir (absolute tests) (absolute (repo ++ [name])) (absolute (repo ++ name :: r ++ [f])) = absolute (tests ++ r) /\
  header_path (absolute repo) (absolute (repo ++ name :: r ++ [f])) = name :: r ++ [f].
Proof.
  unfold host_dir, header_path. split.
  - replace (absolute (repo ++ name :: r ++ [f])) with (absolute (repo ++ [name]) ++ (r ++ [f])) by (unfold absolute; cbn; by rewrite <- app_assoc).
    rewrite relative_within by (by destruct r). rewrite app_assoc, removelast_last. done.
  - change (absolute (repo ++ name :: r ++ [f])) with (absolute repo ++ (name :: r ++ [f])). by rewrite relative_within.
Qed.

Lemma strip_common_app a p q : Prune.Model.strip_common (a ++ p) (a ++ q) = Prune.Model.strip_common p q.
Proof. induction a as [|x a IH]; [done|]. cbn. by destruct (decide (x = x)). Qed.

Lemma host_outside tests t repo name r f : named (tests ++ [t]) -> named (r ++ [f]) -> head (r ++ [f]) <> Some name ->
  normal (host_dir (absolute (tests ++ [t])) (absolute (repo ++ [name])) (absolute (repo ++ r ++ [f]))) = absolute (tests ++ r) /\
  header_path (absolute repo) (absolute (repo ++ r ++ [f])) = r ++ [f].
Proof.
  intros Ht Hr Hh. unfold host_dir, header_path. split.
  - assert (relative (absolute (repo ++ r ++ [f])) (absolute (repo ++ [name])) = ⌜".."⌝ :: r ++ [f]) as ->.
    { unfold relative. change (absolute (repo ++ r ++ [f])) with (absolute repo ++ (r ++ [f])). change (absolute (repo ++ [name])) with (absolute repo ++ [name]).
      rewrite !strip_common_app. destruct (r ++ [f]) as [|y l] eqn:E; [by destruct r|]. cbn [head] in Hh. cbn [Prune.Model.strip_common].
      destruct (decide (name = y)) as [->|]; [done|]. destruct (decide (y = name)) as [->|]; [done|]. done. }
    replace (absolute (tests ++ [t]) ++ ⌜".."⌝ :: r ++ [f]) with ((absolute (tests ++ t :: ⌜".."⌝ :: r)) ++ [f]).
    2:{ unfold absolute. cbn. f_equal. rewrite <- !app_assoc. done. }
    rewrite removelast_last. rewrite (shorter_normal (absolute (tests ++ t :: ⌜".."⌝ :: r)) (absolute (tests ++ r))); [|apply relations.rtc_once|done].
    + apply normal_absolute. apply Forall_app in Ht as [Ht _], Hr as [Hr _]. by apply Forall_app.
    + apply (shorter_up (absolute tests) t r). by apply Forall_app in Ht as [_ Ht].
  - change (absolute (repo ++ r ++ [f])) with (absolute repo ++ (r ++ [f])). rewrite relative_within by (by destruct r). done.
Qed.

(** ** What is generated *)
Lemma absent_new es repo dir file w l : named (dir ++ file) -> dir ++ file = w :: l -> file <> [] -> w ∉ repo ->
  absent_header (Folder es) (absolute repo) dir file = Ok (absolute (repo ++ dir ++ file)).
Proof.
  intros Hn E Hf Hw. unfold absent_header.
  assert (Outputs.Model.is_absolute file = false) as ->.
  { unfold Outputs.Model.is_absolute. apply bool_decide_eq_false. destruct file as [|y file]; [done|]. intros Hh. injection Hh as ->.
    destruct (named_elem _ Outputs.Model.root Hn) as (_ & _ & H & _); [|done]. apply elem_of_app. right. by left. }
  pose proof (rebase_relative es repo 0 (dir ++ file)) as Hr. cbn [ups replicate app] in Hr. change (ups 0 ++ dir ++ file) with (dir ++ file) in Hr.
  rewrite Hr by (done || by rewrite E). cbn [rbind]. rewrite E in *. rewrite stripped_foreign; [done|].
  intros [->|H]%elem_of_cons; [|done]. destruct (named_elem _ ⌜"/"⌝ Hn) as (_ & _ & H & _); [by left|done].
Qed.

Lemma absent_found es1 es2 repo w l d n s x : name_parts n s x -> named (w :: l) -> w :: l = d ++ [n] ->
  Forall (fun e => e <> []) (es1 ++ es2) ->
  exists e, build_source_path (Folder (es1 ++ absolute (repo ++ w :: l) :: es2)) (d ++ [n]) = Ok e /\ e <> [] /\ (w :: l) `suffix_of` e.
Proof.
  intros Hp Hn E Hes. rewrite (build_search _ d n s x Hp). unfold spellings. cbn [search]. rewrite <- (parts_name n s x Hp), <- E.
  destruct (List.find (fun p => ends p (w :: l)) (es1 ++ absolute (repo ++ w :: l) :: es2)) as [e|] eqn:F.
  - apply List.find_some in F as [F1 F2]. apply ends_suffix in F2. destruct e as [|y e]; [by destruct F2 as [[|] F2]|]. by exists (y :: e).
  - apply find_none in F. rewrite Forall_app, Forall_cons in F. destruct F as (_ & F & _). destruct F. by exists (absolute repo).
Qed.

Lemma slashed_generic p : Prune.Model.generic_string p = slashed p.
Proof. induction p as [|x [|y p] IH]; [done|done|]. change (x ++ ⌜"/"⌝ ++ Prune.Model.generic_string (y :: p) = x ++ ⌜"/"⌝ ++ slashed (y :: p)). by rewrite IH. Qed.

Lemma generic_named p : named p -> generic p = slashed p.
Proof.
  intros H. unfold generic, Outputs.Model.is_absolute. rewrite bool_decide_false; [apply slashed_generic|].
  destruct p as [|x p]; [done|]. intros E. injection E as ->. by destruct (named_elem _ Outputs.Model.root H) as (_ & _ & Hx & _); [left|].
Qed.
Lemma parts_stem n s x : named [n] -> name_parts n s x -> s <> [].
Proof.
  intros Hn H. revert Hn. destruct H as [s' e Hs He|s' Hs|s' Hs]; intros Hn; [done| |done]. destruct (named_elem _ s' Hn) as (_ & _ & _ & H); [by left|done].
Qed.
Lemma named_spelling d s e : named d -> s <> [] -> e ∈ header_extensions -> named (d ++ [s ++ e]).
Proof.
  intros Hd Hs He. apply Forall_app. split; [done|]. constructor; [|constructor]. intros H.
  destruct s as [|c s]; [done|].
  assert (3 <= length ((c :: s) ++ e)) as Hl.
  { rewrite app_length. cbn [length]. enough (2 <= length e) by lia.
    unfold header_extensions in He. repeat (apply elem_of_cons in He as [->|He]; [cbn; lia|]). by apply elem_of_nil in He. }
  repeat (apply elem_of_cons in H as [H|H]; [rewrite H in Hl; cbn in Hl; lia|]). by apply elem_of_nil in H.
Qed.

Lemma alternatives_spec d n s x exts : named (d ++ [n]) -> name_parts n s x -> (forall e, e ∈ exts -> e ∈ header_extensions) ->
  alternatives (d ++ [n]) exts =
    concat (map (fun c => ⌜" or "⌝ ++ slashed c) (map (fun e => d ++ [s ++ e]) (List.filter (fun e => bool_decide (e <> x)) exts))).
Proof.
  intros Hn H. induction exts as [|e exts IH]; intros He; [done|]. cbn [alternatives List.filter]. rewrite (extension_parts d n s x H).
  rewrite IH by (intros e' He'; apply He; by right). destruct (decide (e <> x)) as [Hx|Hx].
  - rewrite bool_decide_true by done. cbn [map concat]. f_equal. f_equal. rewrite (replace_parts d n s x e H). apply generic_named.
    apply Forall_app in Hn as [Hd Hn]. apply named_spelling; [done| |apply He; by left]. by apply (parts_stem n s x).
  - by rewrite bool_decide_false by done.
Qed.

Lemma relative_siblings root a b : a <> b -> relative (absolute (root ++ [a])) (absolute (root ++ [b])) = [⌜".."⌝; a].
Proof.
  intros H. unfold relative. change (absolute (root ++ [a])) with (absolute root ++ [a]). change (absolute (root ++ [b])) with (absolute root ++ [b]).
  rewrite !strip_common_app. cbn [Prune.Model.strip_common]. destruct (decide (b = a)) as [->|]; [done|]. by destruct (decide (a = b)).
Qed.

Lemma locate_error es root src tests d n s x : name_parts n s x -> named (d ++ [n]) -> Forall (fun e => e <> []) es -> src <> tests ->
  Forall (absent_in es) (spellings d s x) ->
  locate (Folder es) (absolute (root ++ [src])) (absolute (root ++ [tests])) None (d ++ [n]) =
    Ok (inr (⌜"Unable to locate file "⌝ ++ slashed (d ++ [n]) ++ concat (map (fun c => ⌜" or "⌝ ++ slashed c) (tail (spellings d s x))) ++
             ⌜" in the source repository
../"⌝ ++ src)).
Proof.
  intros H Hn Hes Hst Ha. unfold locate. rewrite (proj2 (build_missing es d n s x H Hes) Ha). cbn [rbind].
  unfold source_path_error. rewrite generic_named by done. rewrite (alternatives_spec d n s x) by done. rewrite relative_siblings by done. done.
Qed.

Lemma locate_found es repo tests absent d n s x e : name_parts n s x -> Forall (fun e => e <> []) es -> first_found es (spellings d s x) e -> e <> [] ->
  locate (Folder es) repo tests absent (d ++ [n]) = Ok (inl e).
Proof.
  intros H Hes Hf He. unfold locate. rewrite (proj2 (build_found es d n s x e H Hes He) Hf). cbn [rbind]. by destruct e.
Qed.

Lemma locate_generated es es' repo tests src dir d n s x w l : name_parts n s x -> Forall (fun e => e <> []) es ->
  Forall (absent_in es) (spellings d s x) -> named (dir ++ d ++ [n]) -> dir ++ d ++ [n] = w :: l -> w ∉ src ->
  locate (Folder es) repo tests (Some (absent_header (Folder es') (absolute src) dir)) (d ++ [n]) = Ok (inl (absolute (src ++ dir ++ d ++ [n]))).
Proof.
  intros H Hes Ha Hn E Hw. unfold locate. rewrite (proj2 (build_missing es d n s x H Hes) Ha). cbn [rbind].
  rewrite (absent_new es' src dir (d ++ [n]) w l Hn E); [done|by destruct d|done].
Qed.

Lemma generic_absolute p : generic (absolute p) = ⌜"/"⌝ ++ slashed p.
Proof. unfold generic. cbn [tail]. by rewrite slashed_generic. Qed.
Lemma alternatives_absolute d n s x exts : name_parts n s x ->
  alternatives (absolute (d ++ [n])) exts =
    concat (map (fun c => ⌜" or /"⌝ ++ slashed c) (map (fun e => d ++ [s ++ e]) (List.filter (fun e => bool_decide (e <> x)) exts))).
Proof.
  intros H. change (absolute (d ++ [n])) with (absolute d ++ [n]). induction exts as [|e exts IH]; [done|].
  cbn [alternatives List.filter]. rewrite (extension_parts (absolute d) n s x H), IH. destruct (decide (e <> x)) as [Hx|Hx].
  - rewrite bool_decide_true by done. cbn [map concat]. f_equal. rewrite (replace_parts (absolute d) n s x e H).
    change (absolute d ++ [s ++ e]) with (absolute (d ++ [s ++ e])). by rewrite generic_absolute.
  - by rewrite bool_decide_false by done.
Qed.
Lemma locate_error_absolute es root src tests d n s x : name_parts n s x -> Forall (fun e => e <> []) es -> src <> tests ->
  Forall (absent_in es) (map absolute (spellings d s x)) ->
  locate (Folder es) (absolute (root ++ [src])) (absolute (root ++ [tests])) None (absolute (d ++ [n])) =
    Ok (inr (⌜"Unable to locate file /"⌝ ++ slashed (d ++ [n]) ++ concat (map (fun c => ⌜" or /"⌝ ++ slashed c) (tail (spellings d s x))) ++
             ⌜" in the source repository
../"⌝ ++ src)).
Proof.
  intros H Hes Hst Ha. unfold locate.
  assert (build_source_path (Folder es) (absolute (d ++ [n])) = Ok []) as ->.
  { change (absolute (d ++ [n])) with (absolute d ++ [n]). apply (build_missing es (absolute d) n s x H Hes).
    replace (spellings (absolute d) s x) with (map absolute (spellings d s x)); [done|]. unfold spellings. cbn [map]. f_equal. by rewrite map_map. }
  cbn [rbind]. unfold source_path_error. rewrite generic_absolute, (alternatives_absolute d n s x) by done. rewrite relative_siblings by done. done.
Qed.
