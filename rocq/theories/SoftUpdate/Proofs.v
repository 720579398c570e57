(** Proofs about [soft_update]. *)
From Coq Require Import Ascii NArith.
From stdpp Require Import list sets sorting.
From Verif.Base Require Import Outcome Compare ListLemmas.
From Verif.Text Require Import Model.
From Verif.SoftUpdate Require Import Model Spec.
Local Open Scope res_scope.

Notation dir := (list (text * node)) (only parsing).

(** ** Folders *)

Lemma entry_put d n e m : entry (put d n e) m = if decide (n = m) then Some e else entry d m.
Proof.
  induction d as [|[k e'] d IH]; cbn; [done|]. destruct (decide (k = n)) as [->|Hkn]; cbn.
  - by destruct (decide (n = m)).
  - rewrite IH. destruct (decide (k = m)) as [->|]; [|done]. by rewrite decide_False.
Qed.

Lemma entry_remove d n m : entry (remove d n) m = if decide (n = m) then None else entry d m.
Proof.
  unfold remove. induction d as [|[k e'] d IH]; cbn; [by destruct (decide _)|]. destruct (decide (k = n)) as [->|Hkn]; cbn.
  - rewrite IH. by destruct (decide (n = m)).
  - rewrite IH. destruct (decide (k = m)) as [->|]; [|done]. by rewrite decide_False.
Qed.

Lemma entry_elem d n e : entry d n = Some e -> (n, e) ∈ d.
Proof.
  induction d as [|[k e'] d IH]; cbn; [done|]. destruct (decide (k = n)) as [->|]; [intros [= ->]; by left|].
  intros H. right. by apply IH.
Qed.

Lemma elem_entry d n e : NoDup (map fst d) -> (n, e) ∈ d -> entry d n = Some e.
Proof.
  induction d as [|[k e'] d IH]; cbn; [intros _ H; by apply elem_of_nil in H|]. rewrite NoDup_cons, elem_of_cons.
  intros [Hk Hd] [[= -> ->]|H]; [by rewrite decide_True|]. rewrite decide_False; [by apply IH|].
  intros ->. apply Hk. apply elem_of_list_In, in_map_iff. exists (n, e). split; [done|by apply elem_of_list_In].
Qed.

Lemma entry_names d n : n ∈ map fst d <-> entry d n <> None.
Proof.
  induction d as [|[k e'] d IH]; cbn; [by rewrite elem_of_nil|]. rewrite elem_of_cons, IH.
  destruct (decide (k = n)) as [->|H]; [naive_solver|]. split; [|by right]. by intros [->|].
Qed.

Lemma put_names d n e : map fst (put d n e) = if decide (n ∈ map fst d) then map fst d else map fst d ++ [n].
Proof.
  induction d as [|[k e'] d IH]; cbn [put map fst]; [done|]. destruct (decide (k = n)) as [->|H]; cbn [map fst].
  - rewrite decide_True; [done|by left].
  - rewrite IH. destruct (decide (n ∈ map fst d)) as [Hn|Hn].
    + rewrite decide_True; [done|by right].
    + rewrite decide_False; [done|]. rewrite elem_of_cons. by intros [->|].
Qed.

Lemma put_nodup d n e : NoDup (map fst d) -> NoDup (map fst (put d n e)).
Proof.
  intros H. rewrite put_names. destruct (decide _) as [|Hn]; [done|]. apply NoDup_app. split; [done|]. split; [|apply NoDup_singleton].
  intros x Hx Hy. apply elem_of_list_singleton in Hy as ->. done.
Qed.

Lemma depth_entry d n x : entry d n = Some (Dir x) -> depth (Dir x) < depth (Dir d).
Proof.
  intros H. apply entry_elem in H. change (depth (Dir d)) with (S (fold_right (fun x m => Nat.max (depth (snd x)) m) 0 d)).
  assert (depth (Dir x) <= fold_right (fun x m => Nat.max (depth (snd x)) m) 0 d); [|lia].
  induction d as [|y d IH]; [by apply elem_of_nil in H|]. cbn [fold_right]. apply elem_of_cons in H as [<-|H]; [cbn [snd]; lia|].
  specialize (IH H). lia.
Qed.

(** ** Listings *)

Lemma kind_total : total_cmp kind_compare.
Proof. split; [by intros [] []|by intros [] []|by intros [] [] []]. Qed.

Lemma entry_total : total_cmp entry_compare.
Proof. apply pair_total; [apply text_total|apply kind_total]. Qed.

Definition nlt (x y : text * kind) : Prop := text_compare (fst x) (fst y) = Lt.
Definition nsorted (l : list (text * kind)) : Prop := StronglySorted nlt l.

Lemma listing_elem d n k : NoDup (map fst d) -> (n, k) ∈ listing d <-> exists e, entry d n = Some e /\ kind_of e = k.
Proof.
  intros Hd. unfold listing. rewrite sort_by_perm, elem_of_list_In, in_map_iff. split.
  - intros ([m e]&[= <- <-]&H). exists e. split; [|done]. apply elem_entry; [done|]. by apply elem_of_list_In.
  - intros (e&H&<-). exists (n, e). split; [done|]. apply elem_of_list_In. by apply entry_elem.
Qed.

Lemma listing_sorted d : NoDup (map fst d) -> nsorted (listing d).
Proof.
  intros Hd. unfold listing.
  set (l := map _ d). assert (NoDup (map fst l)) as Hl by (unfold l; rewrite map_map; done).
  assert (NoDup (map fst (sort_by entry_compare l))) as Hs.
  { assert (map fst (sort_by entry_compare l) ≡ₚ map fst l) as ->; [|done]. apply Permutation_map, sort_by_perm. }
  assert (NoDup l) as Hn by (by apply (NoDup_fmap_1 fst)).
  pose proof (sort_by_strict entry_total l Hn) as Hss.
  revert Hs Hss. generalize (sort_by entry_compare l). clear. intros l Hs Hss. unfold nsorted.
  induction Hss as [|x l Hss IH HF]; [constructor|]. cbn [map] in Hs. apply NoDup_cons in Hs as [Hx Hs].
  constructor; [by apply IH|]. rewrite Forall_forall in *. intros y Hy. specialize (HF y Hy). unfold lt_by, nlt in *.
  unfold entry_compare, pair_compare in HF. destruct (text_compare (fst x) (fst y)) eqn:E; [|done|done].
  apply (cmp_eq text_total) in E. exfalso. apply Hx. rewrite E. apply elem_of_list_In, in_map. by apply elem_of_list_In.
Qed.

Lemma listing_length d : length (listing d) = length d.
Proof. unfold listing. rewrite (Permutation_length (sort_by_perm _)). apply map_length. Qed.

(** ** The merge *)

Section merge.
  Variable rx : text -> text -> text.
  Variable sub : dir -> dir -> res (dir * dir).

  Notation update_pair := (update_pair rx sub).
  Notation update_pairs := (update_pairs rx sub).
  Notation update_entries := (update_entries rx sub).

  Fixpoint merge (lf : list (text * kind)) : list (text * kind) -> dir -> dir -> res (dir * dir) :=
    fix go lt f t :=
      match lf, lt with
      | [], _ => Ok (f, fold_left (fun t y => remove t (fst y)) lt t)
      | x :: lf', [] => let? t' := copy_entry x f t in merge lf' [] f t'
      | x :: lf', y :: lt' =>
          match entry_compare x y with
          | Eq => let? r := update_pair x f t in merge lf' lt' (fst r) (snd r)
          | Lt => let? t' := copy_entry x f t in match lf' with [] => UB | _ => merge lf' lt f t' end
          | Gt => go lt' f (remove t (fst y))
          end
      end.

  Lemma merge_nil lt f t : merge [] lt f t = Ok (f, fold_left (fun t y => remove t (fst y)) lt t).
  Proof. by destruct lt. Qed.
  Lemma merge_cons_nil x lf f t : merge (x :: lf) [] f t = let? t' := copy_entry x f t in merge lf [] f t'.
  Proof. done. Qed.
  Lemma merge_cons x lf y lt f t : merge (x :: lf) (y :: lt) f t =
    match entry_compare x y with
    | Eq => let? r := update_pair x f t in merge lf lt (fst r) (snd r)
    | Lt => let? t' := copy_entry x f t in match lf with [] => UB | _ => merge lf (y :: lt) f t' end
    | Gt => merge (x :: lf) lt f (remove t (fst y))
    end.
  Proof. done. Qed.

  Lemma rbind_assoc {A B C} (m : res A) (g : A -> res B) (h : B -> res C) :
    (let? y := (let? x := m in g x) in h y) = (let? x := m in let? y := g x in h y).
  Proof. by destruct m. Qed.
  Lemma rbind_ext {A B} (m : res A) (g h : A -> res B) : (forall x, g x = h x) -> (let? x := m in g x) = (let? x := m in h x).
  Proof. intros H. destruct m; cbn; auto. Qed.

  Lemma merge_pairs lf : forall lt f t, merge lf lt f t =
    let? r := update_pairs (fst (mismatch lf lt)) f t in
    merge (fst (snd (mismatch lf lt))) (snd (snd (mismatch lf lt))) (fst r) (snd r).
  Proof.
    induction lf as [|x lf IH]; intros lt f t; [done|]. destruct lt as [|y lt]; [done|].
    rewrite merge_cons. cbn [mismatch]. destruct (entry_compare x y) eqn:E.
    - cbn [fst snd update_pairs]. rewrite rbind_assoc. apply rbind_ext. intros r. apply IH.
    - cbn [fst snd update_pairs rbind]. by rewrite merge_cons, E.
    - cbn [fst snd update_pairs rbind]. by rewrite merge_cons, E.
  Qed.

  Lemma mismatch_length lf : forall lt, length (fst (snd (mismatch lf lt))) <= length lf /\ length (snd (snd (mismatch lf lt))) <= length lt.
  Proof.
    induction lf as [|x lf IH]; intros lt; [done|]. destruct lt as [|y lt]; [done|]. cbn [mismatch].
    destruct (entry_compare x y); [|done|done]. cbn [fst snd length]. specialize (IH lt). lia.
  Qed.

  Lemma mismatch_head lf : forall lt x lf' y lt', snd (mismatch lf lt) = (x :: lf', y :: lt') -> entry_compare x y <> Eq.
  Proof.
    induction lf as [|x lf IH]; intros lt x0 lf' y0 lt'; [done|]. destruct lt as [|y lt]; [done|]. cbn [mismatch].
    destruct (entry_compare x y) eqn:E; cbn [snd].
    - apply IH.
    - intros [= <- <- <- <-]. by rewrite E.
    - intros [= <- <- <- <-]. by rewrite E.
  Qed.

  Lemma merge_copy_nil lf : forall f t, merge lf [] f t = let? c := copy_loop lf [] f t in Ok (f, snd c).
  Proof.
    induction lf as [|x lf IH]; intros f t; [done|]. rewrite merge_cons_nil. cbn [copy_loop]. rewrite rbind_assoc.
    apply rbind_ext. intros t'. apply IH.
  Qed.

  Lemma merge_copy y lt lf : forall f t, lf <> [] -> merge lf (y :: lt) f t =
    let? c := copy_loop lf (y :: lt) f t in match fst c with [] => UB | _ => merge (fst c) (y :: lt) f (snd c) end.
  Proof.
    induction lf as [|x lf IH]; intros f t Hne; [done|]. rewrite merge_cons. cbn [copy_loop].
    destruct (entry_compare x y) eqn:E.
    - cbn [rbind fst snd]. by rewrite merge_cons, E.
    - rewrite rbind_assoc. apply rbind_ext. intros t'. destruct lf as [|x2 lf]; [done|]. by apply IH.
    - cbn [rbind fst snd]. by rewrite merge_cons, E.
  Qed.

  Lemma copy_loop_shorter x lf y lt f t c : copy_loop (x :: lf) (y :: lt) f t = Ok c ->
    length (fst c) <= length (x :: lf) /\ (entry_compare x y = Lt -> length (fst c) <= length lf) /\
    (entry_compare x y <> Lt -> fst c = x :: lf).
  Proof.
    revert x f t. induction lf as [|x2 lf IH]; intros x f t; cbn [copy_loop]; destruct (entry_compare x y) eqn:E.
    - intros [= <-]. cbn. split; [lia|]. split; [done|done].
    - destruct (copy_entry x f t) as [t'| | |]; try done. cbn [rbind]. intros [= <-]. cbn. split; [lia|]. split; [lia|done].
    - intros [= <-]. cbn. split; [lia|]. split; [done|done].
    - intros [= <-]. cbn. split; [lia|]. split; [done|done].
    - destruct (copy_entry x f t) as [t'| | |]; try done. cbn [rbind]. intros H. apply IH in H as [H _]. cbn [length] in *.
      split; [lia|]. split; [lia|done].
    - intros [= <-]. cbn. split; [lia|]. split; [done|done].
  Qed.

  Lemma merge_remove x lf lt : forall f t, merge (x :: lf) lt f t =
    let? d := remove_loop (x :: lf) lt t in merge (x :: lf) (fst d) f (snd d).
  Proof.
    induction lt as [|y lt IH]; intros f t; [done|]. rewrite merge_cons. cbn [remove_loop].
    rewrite (cmp_opp entry_total x y). destruct (entry_compare x y) eqn:E; cbn [CompOpp].
    - cbn [rbind fst snd]. by rewrite merge_cons, E.
    - cbn [rbind fst snd]. by rewrite merge_cons, E.
    - apply IH.
  Qed.

  Lemma remove_loop_shorter x lf lt t d : remove_loop (x :: lf) lt t = Ok d -> length (fst d) <= length lt /\
    (forall y lt', lt = y :: lt' -> entry_compare x y = Gt -> length (fst d) <= length lt').
  Proof.
    revert t. induction lt as [|y lt IH]; intros t; cbn [remove_loop]; [by intros [= <-]|].
    destruct (entry_compare y x) eqn:E.
    - intros [= <-]. split; [done|]. intros y' lt' [= <- <-] H. apply (cmp_gt entry_total) in H. congruence.
    - intros H. apply IH in H as [H _]. split; [cbn [length]; lia|]. intros y' lt' [= <- <-] _. done.
    - intros [= <-]. split; [done|]. intros y' lt' [= <- <-] H. apply (cmp_gt entry_total) in H. congruence.
  Qed.

  Lemma update_entries_merge fuel : forall lf lt f t, length lf + length lt < fuel -> update_entries fuel lf lt f t = merge lf lt f t.
  Proof.
    induction fuel as [|fuel IH]; intros lf lt f t Hf; [lia|]. rewrite merge_pairs. cbn [Model.update_entries].
    pose proof (mismatch_length lf lt) as Hl. pose proof (mismatch_head lf lt) as Hh.
    destruct (mismatch lf lt) as [c [lf' lt']]. cbn [fst snd] in *. apply rbind_ext. intros [f' t']. cbn [fst snd].
    destruct lf' as [|x lf']; [by rewrite merge_nil|]. destruct lt' as [|y lt'].
    { rewrite merge_copy_nil. done. }
    rewrite merge_copy by done. destruct (copy_loop (x :: lf') (y :: lt') f' t') as [[lf2 t2]| | |] eqn:Ec; [|done..].
    cbn [rbind fst snd]. apply copy_loop_shorter in Ec as (H1&H2&H3). cbn [fst] in *.
    destruct lf2 as [|x2 lf2]; [done|]. rewrite merge_remove.
    destruct (remove_loop (x2 :: lf2) (y :: lt') t2) as [[lt2 t3]| | |] eqn:Er; [|done..]. cbn [rbind fst snd].
    apply remove_loop_shorter in Er as [H4 H5]. cbn [fst] in *. apply IH.
    specialize (Hh x lf' y lt' eq_refl). cbn [length] in *. destruct (entry_compare x y) eqn:E; [done| |].
    - specialize (H2 eq_refl). lia.
    - specialize (H3 ltac:(done)). injection H3 as -> ->. specialize (H5 y lt' eq_refl E). cbn [length] in *. lia.
  Qed.
End merge.

(** ** Names *)

Lemma last_dot_none s : dot ∉ s -> last_dot s = None.
Proof.
  induction s as [|c s IH]; intros H; [done|]. rewrite not_elem_of_cons in H. destruct H as [H1 H2]. cbn.
  rewrite IH by done. by rewrite decide_False.
Qed.

Lemma last_dot_app a b : dot ∉ b -> last_dot (a ++ dot :: b) = Some (a, dot :: b).
Proof.
  intros H. induction a as [|c a IH]; cbn [app last_dot].
  - rewrite last_dot_none by done. by rewrite decide_True.
  - by rewrite IH.
Qed.

Lemma supplement_parts a : a <> [] -> stem (a ++ seqpat) = a /\ extension (a ++ seqpat) = seqpat.
Proof.
  intros H. unfold stem, extension. change seqpat with (dot :: ["s"; "e"; "q"; "p"; "a"; "t"]%char). rewrite (last_dot_app a ["s"; "e"; "q"; "p"; "a"; "t"]%char); [by destruct a|].
  apply (bool_decide_unpack _). by vm_compute.
Qed.

Lemma stem_nonempty n : n <> [] -> stem n <> [].
Proof. intros H. unfold stem. destruct (last_dot n) as [[[|c a] b]|]; done. Qed.

Lemma keep_not_seqpat : extension keep <> seqpat.
Proof. by vm_compute. Qed.

(** ** Special files *)

Lemma existsb_has_stem s f : existsb (has_stem s) f = true <-> exists w, entry f w <> None /\ stem w = s /\ extension w <> seqpat.
Proof.
  rewrite existsb_exists. split.
  - intros ([w e]&Hin&H). exists w. unfold has_stem in H. cbn [fst] in H. destruct (decide _); [|done]. destruct (decide _); [done|].
    split; [|done]. apply entry_names. apply elem_of_list_In. by apply (in_map fst) in Hin.
  - intros (w&H1&H2&H3). apply entry_names in H1. apply elem_of_list_In, in_map_iff in H1 as ([w' e]&<-&Hin). exists (w', e).
    split; [done|]. unfold has_stem. cbn [fst] in *. rewrite decide_True by done. by rewrite decide_False.
Qed.

Lemma copy_over_ok f n c f' : copy_over f n c = Ok f' -> (forall x, entry f n <> Some (Dir x)) /\ f' = put f n (File c).
Proof. unfold copy_over. destruct (entry f n) as [[a|x]|] eqn:E; [|done|]; intros [= <-]; split; done. Qed.

Lemma special_facts t : forall f f1, NoDup (map fst t) -> copy_special f t = Ok f1 ->
  (NoDup (map fst f) -> NoDup (map fst f1)) /\
  (forall n, entry f1 n = entry f n \/ (special n /\ (forall x, entry f n <> Some (Dir x)) /\
     exists c, entry f1 n = Some (File c) /\ entry t n = Some (File c))) /\
  (forall c, entry t keep = Some (File c) -> entry f1 keep = Some (File c)) /\
  (forall n c w, entry t n = Some (File c) -> extension n = seqpat -> entry f w <> None -> stem w = stem n -> extension w <> seqpat ->
     entry f1 n = Some (File c)).
Proof.
  induction t as [|[m e] t IH]; intros f f1 Hd Hc.
  { injection Hc as <-. repeat split; [done|by left|done|done]. }
  cbn [map fst] in Hd. apply NoDup_cons in Hd as [Hm Hd].
  assert (forall n, entry t n <> None -> n <> m) as Hne.
  { intros n Hn ->. by apply Hm, entry_names. }
  assert (entry t m = None) as Hmn.
  { destruct (entry t m) eqn:E; [|done]. exfalso. by apply (Hne m); [rewrite E|]. }
  assert (forall f f1, copy_special f t = Ok f1 ->
    (NoDup (map fst f) -> NoDup (map fst f1)) /\
    (forall n, entry f1 n = entry f n \/ (special n /\ (forall x, entry f n <> Some (Dir x)) /\
       exists c, entry f1 n = Some (File c) /\ entry ((m, e) :: t) n = Some (File c))) /\
    (forall c, entry t keep = Some (File c) -> entry f1 keep = Some (File c)) /\
    (forall n c w, entry t n = Some (File c) -> extension n = seqpat -> entry f w <> None -> stem w = stem n -> extension w <> seqpat ->
       entry f1 n = Some (File c)) /\ entry f1 m = entry f m) as IH'.
  { clear f f1 Hc. intros f f1 Hc. destruct (IH f f1 Hd Hc) as (H1&H2&H3&H4). split; [done|]. split; [|split; [done|split; [done|]]].
    - intros n. destruct (H2 n) as [H|(Hs&Hx&c&Ha&Hb)]; [by left|]. right. split; [done|]. split; [done|]. exists c. split; [done|].
      cbn [entry]. rewrite decide_False; [done|]. intros ->. by apply (Hne n); [rewrite Hb|].
    - destruct (H2 m) as [H|(_&_&c&_&Hb)]; [done|]. congruence. }
  clear IH.
  assert (forall c f', special m -> copy_over f m c = Ok f' -> e = File c -> copy_special f' t = Ok f1 ->
    (NoDup (map fst f) -> NoDup (map fst f1)) /\
    (forall n, entry f1 n = entry f n \/ (special n /\ (forall x, entry f n <> Some (Dir x)) /\
       exists c, entry f1 n = Some (File c) /\ entry ((m, e) :: t) n = Some (File c))) /\
    (forall c, entry ((m, e) :: t) keep = Some (File c) -> entry f1 keep = Some (File c)) /\
    (forall n c w, entry ((m, e) :: t) n = Some (File c) -> extension n = seqpat -> entry f w <> None -> stem w = stem n -> extension w <> seqpat ->
       entry f1 n = Some (File c))) as Hstep.
  { intros c f' Hsp Hco -> Hcs. apply copy_over_ok in Hco as [Hnd ->]. destruct (IH' _ _ Hcs) as (H1&H2&H3&H4&H5).
    rewrite entry_put, decide_True in H5 by done. split; [intros Hn; by apply H1, put_nodup|]. split; [|split].
    - intros n. destruct (decide (n = m)) as [->|Hnm].
      + right. split; [done|]. split; [done|]. exists c. split; [done|]. cbn [entry]. by rewrite decide_True.
      + destruct (H2 n) as [H|H].
        * left. rewrite H, entry_put. by rewrite decide_False by congruence.
        * right. rewrite entry_put in H. by rewrite decide_False in H by congruence.
    - intros c'. cbn [entry]. destruct (decide (m = keep)) as [->|]; [by intros [= <-]|]. apply H3.
    - intros n c' w. cbn [entry]. destruct (decide (m = n)) as [->|]; [by intros [= <-]|].
      intros Ha Hb Hw. apply H4; [done|done|]. rewrite entry_put. by destruct (decide _). }
  destruct e as [c|x]; cbn [copy_special] in Hc.
  - destruct (decide (extension m = seqpat)) as [Hext|Hext].
    + destruct (existsb (has_stem (stem m)) f) eqn:Ew.
      * destruct (copy_over f m c) as [f'| | |] eqn:Eo; try done. cbn [rbind] in Hc. apply (Hstep c f'); [by right|done..].
      * destruct (IH' f f1 Hc) as (H1&H2&H3&H4&H5). split; [done|]. split; [done|]. split.
        -- intros c'. cbn [entry]. rewrite decide_False; [apply H3|]. intros ->. by apply keep_not_seqpat.
        -- intros n c' w. cbn [entry]. destruct (decide (m = n)) as [->|]; [|apply H4].
           intros _ _ Hw1 Hw2 Hw3. exfalso. assert (existsb (has_stem (stem n)) f = true); [|congruence].
           apply existsb_has_stem. eauto.
    + destruct (decide (m = keep)) as [->|Hk].
      * destruct (copy_over f keep c) as [f'| | |] eqn:Eo; try done. cbn [rbind] in Hc. apply (Hstep c f'); [by left|done..].
      * destruct (IH' f f1 Hc) as (H1&H2&H3&H4&H5). split; [done|]. split; [done|]. split.
        -- intros c'. cbn [entry]. rewrite decide_False by done. apply H3.
        -- intros n c' w. cbn [entry]. destruct (decide (m = n)) as [->|]; [done|apply H4].
  - destruct (IH' f f1 Hc) as (H1&H2&H3&H4&H5). split; [done|]. split; [done|]. split.
    + intros c'. cbn [entry]. destruct (decide (m = keep)) as [->|]; [done|]. apply H3.
    + intros n c' w. cbn [entry]. destruct (decide (m = n)) as [->|]; [done|apply H4].
Qed.

(** ** Correctness of the merge *)

Lemma last_cons_ne {A} (x : A) l : l <> [] -> last (x :: l) = last l.
Proof. by destruct l. Qed.

Lemma last_elem {A} (l : list A) z : last l = Some z -> z ∈ l.
Proof. intros H. apply last_Some in H as [l' ->]. set_solver. Qed.

Section correct.
  Variable rx : text -> text -> text.
  Variable sub : dir -> dir -> res (dir * dir).
  Variables f1 t0 : dir.
  (** what is known of updates of sub-folders *)
  Variable P : dir -> dir -> dir -> dir -> Prop.

  Hypothesis Hsub : forall n x y x' y', entry f1 n = Some (Dir x) -> entry t0 n = Some (Dir y) -> sub x y = Ok (x', y') -> P x y x' y'.
  Hypothesis Hnames : forall n, entry f1 n <> None -> n <> [].
  Hypothesis Hkeep : forall c, entry t0 keep = Some (File c) -> entry f1 keep = Some (File c).
  Hypothesis Hpat : forall n c, entry t0 (supplement n) = Some (File c) -> entry f1 n <> None -> n <> keep -> extension n <> seqpat ->
    entry f1 (supplement n) = Some (File c).

  Notation update_pair := (update_pair rx sub).

  Definition done_file (n : text) (a b : text) : Prop :=
    (entry t0 n = Some (File b) \/ b = a) /\
    (a = b \/ (extension n <> seqpat /\ reduce rx (expressions (entry f1 (supplement n))) a = reduce rx (expressions (entry f1 (supplement n))) b)).

  Inductive done_at (n : text) : option node -> option node -> Prop :=
  | done_none : entry f1 n = None -> done_at n None None
  | done_file_at a b : entry f1 n = Some (File a) -> done_file n a b -> done_at n (Some (File a)) (Some (File b))
  | done_pair x y x' y' : entry f1 n = Some (Dir x) -> entry t0 n = Some (Dir y) -> P x y x' y' -> done_at n (Some (Dir x')) (Some (Dir y'))
  | done_copy x : entry f1 n = Some (Dir x) -> (forall y, entry t0 n <> Some (Dir y)) -> done_at n (Some (Dir x)) (Some (Dir x)).

  Record Inv (lf lt : list (text * kind)) (f t : dir) : Prop := {
    i_sf : nsorted lf;
    i_st : nsorted lt;
    i_kf : forall n k, (n, k) ∈ lf -> exists e, entry f1 n = Some e /\ kind_of e = k;
    i_kt : forall n k, (n, k) ∈ lt -> exists e, entry t0 n = Some e /\ kind_of e = k;
    i_f : forall n, n ∈ map fst lf -> entry f n = entry f1 n;
    i_t : forall n, n ∈ map fst lt -> entry t n = entry t0 n;
    i_ft : forall n, n ∈ map fst lf -> n ∉ map fst lt -> entry t n = None /\ forall x y, entry f1 n = Some (Dir x) -> entry t0 n <> Some (Dir y);
    i_tf : forall n, n ∉ map fst lf -> n ∈ map fst lt -> entry f1 n = None /\ entry f n = None;
    i_done : forall n, n ∉ map fst lf -> n ∉ map fst lt -> done_at n (entry f n) (entry t n)
  }.

  Lemma names_gt (x : text * kind) l : Forall (nlt x) l -> fst x ∉ map fst l.
  Proof.
    intros HF Hin. apply elem_of_list_In, in_map_iff in Hin as (y&Hy&Hin). apply elem_of_list_In in Hin. rewrite Forall_forall in HF.
    specialize (HF y Hin). unfold nlt in HF. rewrite Hy in HF. by apply (cmp_irrefl text_total) in HF.
  Qed.

  Lemma nlt_trans x y z : nlt x y -> nlt y z -> nlt x z.
  Proof. apply (cmp_trans text_total). Qed.

  Lemma nlt_forall x y l : nlt x y -> Forall (nlt y) l -> Forall (nlt x) l.
  Proof. intros H HF. eapply Forall_impl; [exact HF|]. intros z. by apply nlt_trans. Qed.

  Lemma entry_lt x y : entry_compare x y = Lt -> nlt x y \/ (fst x = fst y /\ snd x = Regular /\ snd y = Directory).
  Proof.
    unfold entry_compare, pair_compare, nlt. destruct (text_compare (fst x) (fst y)) eqn:E; [|by left|done].
    apply (cmp_eq text_total) in E. destruct (snd x), (snd y); try done. by right.
  Qed.

  Lemma inv_copy x lf lt f t : Inv (x :: lf) lt f t -> Forall (nlt x) lt ->
    exists t', copy_entry x f t = Ok t' /\ Inv lf lt f t'.
  Proof.
    intros [] HF. destruct x as [n k]. pose proof (names_gt _ _ HF) as Hn. cbn [fst] in Hn.
    destruct (i_ft0 n) as [Htn Hdir]; [by left|done|]. destruct (i_kf0 n k) as (e&He&Hk); [by left|].
    assert (entry f n = Some e) as Hf by (rewrite i_f0; [done|by left]).
    exists (put t n e). unfold copy_entry. cbn [fst]. rewrite Htn, Hf. split; [done|].
    unfold nsorted in *. apply StronglySorted_inv in i_sf0 as [Hs1 Hs2]. pose proof (names_gt _ _ Hs2) as Hn2. cbn [fst] in Hn2.
    assert (forall m, m <> n -> entry (put t n e) m = entry t m) as Hput by (intros m Hm; rewrite entry_put; by rewrite decide_False).
    assert (forall m, m ∈ map fst lf -> m ∈ map fst ((n, k) :: lf)) as Hc by (intros m; by right).
    assert (forall m, m ∉ map fst lf -> m <> n -> m ∉ map fst ((n, k) :: lf)) as Hc2.
    { intros m Hm Hmn. cbn [map fst]. rewrite not_elem_of_cons. done. }
    split; [done|done| |done| | | | |].
    - intros m l Hm. apply i_kf0. by right.
    - intros m Hm. apply i_f0. auto.
    - intros m Hm. rewrite Hput; [by apply i_t0|]. by intros ->.
    - intros m Hm Hm2. rewrite Hput; [apply i_ft0; auto|]. by intros ->.
    - intros m Hm Hm2. apply i_tf0; [|done]. apply Hc2; [done|]. by intros ->.
    - intros m Hm Hm2. destruct (decide (m = n)) as [->|Hmn].
      + rewrite entry_put, decide_True by done. rewrite Hf. destruct e as [a|x].
        * apply done_file_at; [done|]. split; [by right|by left].
        * apply done_copy; [done|]. intros y. by eapply Hdir.
      + rewrite Hput by done. apply i_done0; [|done]. by apply Hc2.
  Qed.

  Lemma inv_remove y lf lt f t : Inv lf (y :: lt) f t -> (forall x, x ∈ lf -> entry_compare x y = Gt) -> Inv lf lt f (remove t (fst y)).
  Proof.
    intros [] HF. destruct y as [n k]. cbn [fst].
    unfold nsorted in *. apply StronglySorted_inv in i_st0 as [Hs1 Hs2]. pose proof (names_gt _ _ Hs2) as Hn2. cbn [fst] in Hn2.
    assert (forall m, m <> n -> entry (remove t n) m = entry t m) as Hrem by (intros m Hm; rewrite entry_remove; by rewrite decide_False).
    assert (forall m, m ∈ map fst lt -> m ∈ map fst ((n, k) :: lt)) as Hc by (intros m; by right).
    assert (forall m, m ∉ map fst lt -> m <> n -> m ∉ map fst ((n, k) :: lt)) as Hc2.
    { intros m Hm Hmn. cbn [map fst]. rewrite not_elem_of_cons. done. }
    split; [done|done|done| |done| | | |].
    - intros m l Hm. apply i_kt0. by right.
    - intros m Hm. rewrite Hrem; [by apply i_t0; auto|]. by intros ->.
    - intros m Hm Hm2. destruct (decide (m = n)) as [->|Hmn].
      + rewrite entry_remove, decide_True by done. split; [done|]. intros x y Hx Hy.
        apply elem_of_list_In, in_map_iff in Hm as ([n' l]&Heq&Hin). cbn [fst] in Heq. subst n'. apply elem_of_list_In in Hin.
        specialize (HF _ Hin). destruct (i_kf0 n l Hin) as (e&He&Hl). destruct (i_kt0 n k) as (e'&He'&Hk); [by left|].
        rewrite Hx in He. rewrite Hy in He'. injection He as <-. injection He' as <-. cbn in Hl, Hk. subst l k.
        unfold entry_compare, pair_compare in HF. cbn [fst snd] in HF. by rewrite (cmp_refl text_total) in HF.
      + rewrite Hrem by done. apply i_ft0; [done|]. by apply Hc2.
    - intros m Hm Hm2. apply i_tf0; auto.
    - intros m Hm Hm2. destruct (decide (m = n)) as [->|Hmn].
      + rewrite entry_remove, decide_True by done. destruct (i_tf0 n) as [Ha Hb]; [done|by left|]. rewrite Hb. by apply done_none.
      + rewrite Hrem by done. apply i_done0; [done|]. by apply Hc2.
  Qed.

  Lemma inv_rules lf lt f t n a b : Inv lf lt f t -> n ∈ map fst lf -> n ∈ map fst lt -> entry f1 n = Some (File a) -> entry t0 n = Some (File b) ->
    a = b \/ rules t n = [] \/ (extension n <> seqpat /\ rules t n = expressions (entry f1 (supplement n))).
  Proof.
    intros [] Hnf Hnt Ha Hb. unfold rules. destruct (decide (extension n = seqpat)) as [|Hext]; [by right; left|].
    destruct (decide (n = keep)) as [->|Hnk].
    { left. apply Hkeep in Hb. congruence. }
    assert (n <> []) as Hn0 by (apply Hnames; by rewrite Ha).
    pose proof (stem_nonempty _ Hn0) as Hst. destruct (supplement_parts _ Hst) as [Hs1 Hs2]. fold (supplement n) in Hs1, Hs2.
    set (s := supplement n) in *.
    destruct (decide (s ∈ map fst lt)) as [Hst1|Hst1].
    - rewrite (i_t0 s Hst1). destruct (entry t0 s) as [[c|x]|] eqn:E; [|by right; left..].
      right. right. split; [done|]. assert (entry f1 s = Some (File c)) as ->; [|done]. apply (Hpat n c E); [by rewrite Ha|done|done].
    - destruct (decide (s ∈ map fst lf)) as [Hsf|Hsf].
      + destruct (i_ft0 s Hsf Hst1) as [-> _]. by right; left.
      + pose proof (i_done0 s Hsf Hst1) as Hd. destruct Hd as [|a' b' Ha' [_ [->|[H _]]]|x y x' y'|x]; [by right; left| |done|by right; left..].
        right. right. split; [done|]. by rewrite Ha'.
  Qed.

  Lemma inv_pair n k lf lt f t : Inv ((n, k) :: lf) ((n, k) :: lt) f t ->
    (forall f' t', update_pair (n, k) f t = Ok (f', t') -> Inv lf lt f' t') /\
    ((exists r, update_pair (n, k) f t = Ok r) <->
     (forall x y, entry f1 n = Some (Dir x) -> entry t0 n = Some (Dir y) -> exists r, sub x y = Ok r)).
  Proof.
    intros HI. pose proof HI as [].
    destruct (i_kf0 n k) as (e&He&Hk); [by left|]. destruct (i_kt0 n k) as (e'&He'&Hk'); [by left|].
    assert (entry f n = Some e) as Hf by (rewrite i_f0; [done|by left]).
    assert (entry t n = Some e') as Ht by (rewrite i_t0; [done|by left]).
    unfold nsorted in *. apply StronglySorted_inv in i_sf0 as [Hs1 Hs2]. pose proof (names_gt _ _ Hs2) as Hn1. cbn [fst] in Hn1.
    apply StronglySorted_inv in i_st0 as [Hs3 Hs4]. pose proof (names_gt _ _ Hs4) as Hn2. cbn [fst] in Hn2.
    assert (forall f' t', (forall m, m <> n -> entry f' m = entry f m) -> (forall m, m <> n -> entry t' m = entry t m) ->
      done_at n (entry f' n) (entry t' n) -> Inv lf lt f' t') as Hmain.
    { intros f' t' Hf' Ht' Hd.
      assert (forall m l, m ∈ map fst l -> m ∈ map fst ((n, k) :: l)) as Hc by (intros m; by right).
      assert (forall m l, m ∉ map fst l -> m <> n -> m ∉ map fst ((n, k) :: l)) as Hc2.
      { intros m l Hm Hmn. cbn [map fst]. rewrite not_elem_of_cons. done. }
      split; [done|done| | | | | | |].
      - intros m l Hm. apply i_kf0. by right.
      - intros m l Hm. apply i_kt0. by right.
      - intros m Hm. rewrite Hf'; [apply i_f0; auto|]. by intros ->.
      - intros m Hm. rewrite Ht'; [apply i_t0; auto|]. by intros ->.
      - intros m Hm Hm2. assert (m <> n) by (by intros ->). rewrite Ht' by done. apply i_ft0; auto.
      - intros m Hm Hm2. assert (m <> n) by (by intros ->). rewrite Hf' by done. apply i_tf0; auto.
      - intros m Hm Hm2. destruct (decide (m = n)) as [->|Hmn]; [done|]. rewrite Hf', Ht' by done. apply i_done0; auto. }
    unfold Model.update_pair. cbn [fst]. rewrite Hf, Ht. destruct e as [a|x], e' as [b|y]; cbn in Hk, Hk'; try congruence.
    - pose proof (inv_rules _ _ f t n a b HI) as Hr. specialize (Hr ltac:(by left) ltac:(by left) He He').
      split; [|split; [by intros _ x y Hx; congruence|intros _; destruct (decide _); eauto]].
      intros f' t'. destruct (decide _) as [Heq|Hneq]; intros [= <- <-].
      + apply Hmain; [done|done|]. rewrite Hf, Ht. apply done_file_at; [done|]. split; [by left|].
        destruct Hr as [Hr|[Hr|[Hr1 Hr2]]]; [by left| |].
        * left. by rewrite Hr in Heq.
        * right. rewrite Hr2 in Heq. done.
      + apply Hmain; [done| |].
        * intros m Hm. rewrite entry_put. by rewrite decide_False.
        * rewrite Hf, entry_put, decide_True by done. apply done_file_at; [done|]. split; [by right|by left].
    - split.
      + intros f' t'. destruct (sub x y) as [[x' y']| | |] eqn:E; try done. cbn [rbind fst snd]. intros [= <- <-].
        apply Hmain.
        * intros m Hm. rewrite entry_put. by rewrite decide_False.
        * intros m Hm. rewrite entry_put. by rewrite decide_False.
        * rewrite !entry_put, !decide_True by done. eapply done_pair; [done|done|]. by eapply Hsub.
      + split.
        * intros [r Hr] x0 y0 Hx Hy. rewrite He in Hx. rewrite He' in Hy. injection Hx as <-. injection Hy as <-.
          destruct (sub x y) as [r'| | |]; [eauto|done..].
        * intros H. destruct (H x y He He') as [r ->]. cbn. eauto.
  Qed.

  Lemma fold_remove (lt : list (text * kind)) : forall t n, entry (fold_left (fun t y => remove t (fst y)) lt t) n = if decide (n ∈ map fst lt) then None else entry t n.
  Proof.
    induction lt as [|y lt IH]; intros t n; cbn [fold_left map]; [done|]. rewrite IH, entry_remove.
    destruct (decide (n ∈ map fst lt)) as [Hn|Hn].
    - rewrite decide_True; [done|by right].
    - destruct (decide (fst y = n)) as [->|Hyn]; [rewrite decide_True; [done|by left]|].
      rewrite decide_False; [done|]. rewrite elem_of_cons. by intros [->|].
  Qed.

  Lemma inv_end lt f t : Inv [] lt f t -> Inv [] [] f (fold_left (fun t y => remove t (fst y)) lt t).
  Proof.
    intros [].
    split; [constructor|constructor| | | | | | |]; try (intros n k H; by apply elem_of_nil in H); try (intros n H; by apply elem_of_nil in H).
    intros n _ _. rewrite fold_remove. destruct (decide (n ∈ map fst lt)) as [Hn|Hn].
    - destruct (i_tf0 n) as [Ha ->]; [apply not_elem_of_nil|done|]. by apply done_none.
    - apply i_done0; [apply not_elem_of_nil|done].
  Qed.

  Lemma head_lt x lf y lt f t : Inv (x :: lf) (y :: lt) f t -> entry_compare x y = Lt ->
    Forall (nlt x) (y :: lt) \/ ((forall t', copy_entry x f t <> Ok t') /\ x = (fst x, Regular) /\ y = (fst x, Directory)).
  Proof.
    intros [] H. apply entry_lt in H as [H|(H1&H2&H3)].
    - left. unfold nsorted in *. apply StronglySorted_inv in i_st0 as [_ HF]. constructor; [done|]. by eapply nlt_forall.
    - right. destruct x as [n k], y as [m l]. cbn in H1, H2, H3. subst. split; [|done]. intros t'. unfold copy_entry. cbn [fst].
      destruct (i_kt0 m Directory) as (e&He&_); [by left|]. rewrite i_t0, He by (by left). done.
  Qed.

  Lemma head_gt x lf y lt f t : Inv (x :: lf) (y :: lt) f t -> entry_compare x y = Gt -> forall z, z ∈ x :: lf -> entry_compare z y = Gt.
  Proof.
    intros [] H z Hz. apply elem_of_cons in Hz as [->|Hz]; [done|]. apply (cmp_gt entry_total) in H. apply (cmp_gt entry_total).
    eapply (cmp_trans entry_total); [exact H|]. unfold nsorted in *. apply StronglySorted_inv in i_sf0 as [_ HF]. rewrite Forall_forall in HF.
    specialize (HF z Hz). unfold nlt in HF. unfold entry_compare, pair_compare. by rewrite HF.
  Qed.

  Lemma merge_correct lf : forall lt f t f' t', Inv lf lt f t -> merge rx sub lf lt f t = Ok (f', t') -> Inv [] [] f' t'.
  Proof.
    induction lf as [|x lf IH]; intros lt.
    { intros f t f' t' HI. rewrite merge_nil. intros [= <- <-]. by apply inv_end. }
    induction lt as [|y lt IH2]; intros f t f' t' HI.
    { rewrite merge_cons_nil. destruct (inv_copy x lf [] f t HI) as (t2&->&HI2); [done|]. cbn [rbind]. by apply IH. }
    rewrite merge_cons. destruct (entry_compare x y) eqn:E.
    - apply (cmp_eq entry_total) in E as <-. destruct x as [n k]. destruct (inv_pair n k lf lt f t HI) as [Hp _].
      destruct (update_pair (n, k) f t) as [[f2 t2]| | |] eqn:Eu; try done. cbn [rbind fst snd]. apply IH. by apply Hp.
    - destruct (head_lt _ _ _ _ _ _ HI E) as [HF|(Hn&_)].
      + destruct (inv_copy x lf (y :: lt) f t HI HF) as (t2&->&HI2). cbn [rbind]. destruct lf as [|x2 lf]; [done|]. by apply IH.
      + destruct (copy_entry x f t) as [t2| | |] eqn:Ec; try done. by destruct (Hn t2).
    - apply IH2. apply inv_remove; [done|]. by eapply head_gt.
  Qed.

  (** *** When the merge succeeds *)

  Definition le_last (lf lt : list (text * kind)) : Prop :=
    forall z, last lf = Some z -> z ∈ lt \/ forall y, y ∈ lt -> entry_compare z y <> Lt.
  Definition no_clash (lf lt : list (text * kind)) : Prop := forall n, (n, Regular) ∈ lf -> (n, Directory) ∉ lt.
  Definition subs_ok (lf lt : list (text * kind)) : Prop :=
    forall n x y, (n, Directory) ∈ lf -> (n, Directory) ∈ lt -> entry f1 n = Some (Dir x) -> entry t0 n = Some (Dir y) -> exists r, sub x y = Ok r.

  Lemma nlt_elt x y : nlt x y -> entry_compare x y = Lt.
  Proof. unfold nlt, entry_compare, pair_compare. by intros ->. Qed.

  Lemma nsorted_last x l z : nsorted (x :: l) -> last (x :: l) = Some z -> z = x \/ nlt x z.
  Proof.
    intros Hs Hz. apply last_elem in Hz. apply elem_of_cons in Hz as [->|Hz]; [by left|]. right.
    apply StronglySorted_inv in Hs as [_ HF]. rewrite Forall_forall in HF. by apply HF.
  Qed.

  Lemma forall_nlt_not_in x l k : Forall (nlt x) l -> (fst x, k) ∉ l.
  Proof. intros HF Hin. apply (names_gt _ _ HF). apply elem_of_list_In in Hin. apply (in_map fst) in Hin. by apply elem_of_list_In. Qed.

  Lemma merge_succeeds lf : forall lt f t, Inv lf lt f t ->
    (exists r, merge rx sub lf lt f t = Ok r) <-> le_last lf lt /\ no_clash lf lt /\ subs_ok lf lt.
  Proof.
    induction lf as [|x lf IH]; intros lt.
    { intros f t HI. rewrite merge_nil. split; [|eauto]. intros _. split; [by intros z|]. split; intros n; set_solver. }
    induction lt as [|y lt IH2]; intros f t HI.
    { rewrite merge_cons_nil. destruct (inv_copy x lf [] f t HI) as (t2&->&HI2); [done|]. cbn [rbind]. rewrite IH by done.
      split; intros _; (split; [intros z _; right; set_solver|split; intros n; set_solver]). }
    rewrite merge_cons. pose proof HI as Hi. destruct Hi as [Hsf Hst _ _ _ _ _ _ _]. destruct (entry_compare x y) eqn:E.
    - apply (cmp_eq entry_total) in E as <-. destruct x as [n k]. destruct (inv_pair n k lf lt f t HI) as [Hp1 Hp2].
      pose proof Hsf as Hsf'. pose proof Hst as Hst'. apply StronglySorted_inv in Hsf' as [_ HF1]. apply StronglySorted_inv in Hst' as [_ HF2].
      pose proof (forall_nlt_not_in _ _ Regular HF1) as Ha. pose proof (forall_nlt_not_in _ _ Directory HF1) as Hb.
      pose proof (forall_nlt_not_in _ _ Regular HF2) as Hc. pose proof (forall_nlt_not_in _ _ Directory HF2) as Hd. cbn [fst] in Ha, Hb, Hc, Hd.
      assert (forall lt', (le_last lf lt /\ no_clash lf lt /\ subs_ok lf lt /\ (forall x y, entry f1 n = Some (Dir x) -> entry t0 n = Some (Dir y) -> exists r, sub x y = Ok r) <-> lt') ->
        ((exists r, (let? r := update_pair (n, k) f t in merge rx sub lf lt (fst r) (snd r)) = Ok r) <-> lt')) as Hmain.
      { intros Q <-. split.
        - intros [r Hr]. destruct (update_pair (n, k) f t) as [[f2 t2]| | |] eqn:Eu; try done. cbn [rbind fst snd] in Hr.
          destruct (proj1 (IH lt f2 t2 (Hp1 _ _ eq_refl))) as (H1&H2&H3); [eauto|]. split; [done|]. split; [done|]. split; [done|].
          apply (proj1 Hp2). eauto.
        - intros (H1&H2&H3&H4). destruct (proj2 Hp2 H4) as [[f2 t2] Hu]. rewrite Hu. cbn [rbind fst snd].
          apply IH; [by apply Hp1|]. done. }
      apply Hmain. clear Hmain IH IH2 Hp1 Hp2. split.
      + intros (H1&H2&H3&H4). split; [|split].
        * intros z Hz. destruct lf as [|x2 lf]; [injection Hz as <-; left; by left|]. rewrite last_cons_ne in Hz by done.
          destruct (H1 z Hz) as [Hin|Hle]; [left; by right|]. right. intros y Hy. apply elem_of_cons in Hy as [->|Hy]; [|by apply Hle].
          apply last_elem in Hz. rewrite Forall_forall in HF1. specialize (HF1 z Hz). apply nlt_elt in HF1. by apply (cmp_asym entry_total).
        * intros m Hm Hm2. apply elem_of_cons in Hm as [Hm|Hm]; apply elem_of_cons in Hm2 as [Hm2|Hm2].
          -- congruence.
          -- injection Hm as -> <-. by apply Hd.
          -- injection Hm2 as -> <-. by apply Ha.
          -- by apply (H2 m).
        * intros m x y Hm Hm2. apply elem_of_cons in Hm as [[= -> <-]|Hm]; [by apply H4|].
          apply elem_of_cons in Hm2 as [[= -> <-]|Hm2]; [done|]. by apply H3.
      + intros (H1&H2&H3). split; [|split; [|split]].
        * intros z Hz. destruct lf as [|x2 lf]; [done|]. destruct (H1 z) as [Hin|Hle]; [by rewrite last_cons_ne| |].
          -- apply elem_of_cons in Hin as [->|Hin]; [|by left]. apply last_elem in Hz. exfalso.
             rewrite Forall_forall in HF1. specialize (HF1 _ Hz). unfold nlt in HF1. by apply (cmp_irrefl text_total) in HF1.
          -- right. intros y Hy. apply Hle. by right.
        * intros m Hm Hm2. apply (H2 m); by right.
        * intros m x y Hm Hm2. apply H3; by right.
        * intros x y Hx Hy. apply (H3 n x y); [| |done|done].
          -- destruct HI. destruct (i_kf0 n k) as (e&He&<-); [by left|]. rewrite Hx in He. injection He as <-. by left.
          -- destruct HI. destruct (i_kt0 n k) as (e&He&<-); [by left|]. rewrite Hy in He. injection He as <-. by left.
    - destruct (head_lt _ _ _ _ _ _ HI E) as [HF|(Hn&Hx&Hy)].
      + destruct (inv_copy x lf (y :: lt) f t HI HF) as (t2&->&HI2). cbn [rbind]. destruct lf as [|x2 lf].
        * split; [by intros [r Hr]|]. intros (H1&_). exfalso. destruct (H1 x eq_refl) as [Hin|Hle].
          -- apply (forall_nlt_not_in _ _ (snd x) HF). by destruct x.
          -- apply (Hle y); [by left|done].
        * rewrite (IH (y :: lt) f t2 HI2). split; intros (H1&H2&H3); (split; [|split]).
          -- intros z Hz. rewrite last_cons_ne in Hz by done. by apply H1.
          -- intros m Hm Hm2. apply elem_of_cons in Hm as [Hm|Hm]; [|by apply (H2 m)]. subst x. by apply (forall_nlt_not_in _ _ Directory HF).
          -- intros m a b Hm Hm2. apply elem_of_cons in Hm as [Hm|Hm]; [|by apply H3]. subst x. by apply (forall_nlt_not_in _ _ Directory HF) in Hm2.
          -- intros z Hz. apply H1. by rewrite last_cons_ne.
          -- intros m Hm. apply H2. by right.
          -- intros m a b Hm. apply H3. by right.
      + split.
        * intros [r Hr]. destruct (copy_entry x f t) as [t2| | |] eqn:Ec; try done. by destruct (Hn t2).
        * intros (_&H2&_). exfalso. apply (H2 (fst x)); [rewrite <- Hx; by left|rewrite <- Hy; by left].
    - pose proof (head_gt _ _ _ _ _ _ HI E) as Hg.
      rewrite IH2; [|by apply inv_remove]. split; intros (H1&H2&H3); (split; [|split]).
      + intros z Hz. destruct (H1 z Hz) as [Hin|Hle]; [left; by right|]. right. intros y' Hy'. apply elem_of_cons in Hy' as [->|Hy']; [|by apply Hle].
        rewrite (Hg z); [done|]. by apply last_elem.
      + intros m Hm Hm2. apply elem_of_cons in Hm2 as [Hm2|Hm2]; [|by apply (H2 m)]. subst y. specialize (Hg _ Hm).
        unfold entry_compare, pair_compare in Hg. cbn [fst snd] in Hg. by rewrite (cmp_refl text_total) in Hg.
      + intros m a b Hm Hm2. apply elem_of_cons in Hm2 as [Hm2|Hm2]; [|by apply H3]. subst y. specialize (Hg _ Hm).
        by rewrite (cmp_refl entry_total) in Hg.
      + intros z Hz. destruct (H1 z Hz) as [Hin|Hle].
        * apply elem_of_cons in Hin as [->|Hin]; [|by left]. exfalso. apply last_elem in Hz. specialize (Hg _ Hz). by rewrite (cmp_refl entry_total) in Hg.
        * right. intros y' Hy'. apply Hle. by right.
      + intros m Hm Hm2. apply (H2 m); [done|by right].
      + intros m a b Hm Hm2. apply H3; [done|by right].
  Qed.
  Lemma merge_fuel lf : (forall n x y, entry f1 n = Some (Dir x) -> entry t0 n = Some (Dir y) -> sub x y <> NoFuel) ->
    forall lt f t, Inv lf lt f t -> merge rx sub lf lt f t <> NoFuel.
  Proof.
    intros Hns. induction lf as [|x lf IH]; intros lt.
    { intros f t HI. by rewrite merge_nil. }
    induction lt as [|y lt IH2]; intros f t HI.
    { rewrite merge_cons_nil. destruct (inv_copy x lf [] f t HI) as (t2&->&HI2); [done|]. cbn [rbind]. by apply IH. }
    rewrite merge_cons. destruct (entry_compare x y) eqn:E.
    - apply (cmp_eq entry_total) in E as <-. destruct x as [n k]. destruct (inv_pair n k lf lt f t HI) as [Hp _].
      destruct (update_pair (n, k) f t) as [[f2 t2]| | |] eqn:Eu; try done; cbn [rbind fst snd]; [by apply IH, Hp|]. exfalso.
      destruct HI. unfold Model.update_pair in Eu. cbn [fst] in Eu. rewrite i_f0, i_t0 in Eu by (by left).
      destruct (entry f1 n) as [[a|x]|] eqn:E1, (entry t0 n) as [[b|y]|] eqn:E2; try done; [by destruct (decide _)|].
      specialize (Hns n x y E1 E2). by destruct (sub x y).
    - destruct (head_lt _ _ _ _ _ _ HI E) as [HF|(Hn&_)].
      + destruct (inv_copy x lf (y :: lt) f t HI HF) as (t2&->&HI2). cbn [rbind]. destruct lf as [|x2 lf]; [done|]. by apply IH.
      + unfold copy_entry in *. destruct (entry t (fst x)); [done|]. destruct (entry f (fst x)); [|done]. by edestruct Hn.
    - apply IH2. apply inv_remove; [done|]. by eapply head_gt.
  Qed.
End correct.

(** ** Folders *)

Lemma listing_names d n : NoDup (map fst d) -> n ∈ map fst (listing d) <-> entry d n <> None.
Proof.
  intros Hd. rewrite elem_of_list_In, in_map_iff. split.
  - intros ([m k]&<-&Hin). apply elem_of_list_In, listing_elem in Hin as (e&He&_); [|done]. cbn. by rewrite He.
  - intros H. destruct (entry d n) as [e|] eqn:E; [|done]. exists (n, kind_of e). split; [done|]. apply elem_of_list_In, listing_elem; eauto.
Qed.

Lemma inv_start rx P f1 t : NoDup (map fst f1) -> NoDup (map fst t) -> Inv rx f1 t P (listing f1) (listing t) f1 t.
Proof.
  intros Hf Ht. split; try done.
  - by apply listing_sorted.
  - by apply listing_sorted.
  - intros n k H. by apply listing_elem.
  - intros n k H. by apply listing_elem.
  - intros n H1 H2. rewrite listing_names in H2 by done. destruct (entry t n); [|done]. exfalso. by apply H2.
  - intros n H1 H2. rewrite listing_names in H1 by done. destruct (entry f1 n); [|done]. exfalso. by apply H1.
  - intros n H1 H2. rewrite listing_names in H1, H2 by done. destruct (entry f1 n) eqn:E1; [by exfalso; apply H1|].
    destruct (entry t n); [by exfalso; apply H2|]. by apply done_none.
Qed.

Lemma mirrors_refl rx d : mirrors rx d d.
Proof.
  remember (depth (Dir d)) as k eqn:Hk. assert (depth (Dir d) <= k) as Hle by lia. clear Hk. revert d Hle.
  induction k as [|k IH]; intros d Hle; [cbn in Hle; lia|]. constructor. intros n. destruct (entry d n) as [[a|x]|] eqn:E; constructor.
  - by left.
  - apply IH. apply depth_entry in E. lia.
Qed.

Lemma kept_refl d : kept d d.
Proof.
  remember (depth (Dir d)) as k eqn:Hk. assert (depth (Dir d) <= k) as Hle by lia. clear Hk. revert d Hle.
  induction k as [|k IH]; intros d Hle; [cbn in Hle; lia|]. constructor. intros n. destruct (entry d n) as [[a|x]|] eqn:E; constructor.
  apply IH. apply depth_entry in E. lia.
Qed.

Definition outcome rx (x y x' y' : list (text * node)) : Prop := mirrors rx x' y' /\ kept x x' /\ specials_survive x y y'.

Section special.
  Variables f t f1 : list (text * node).
  Hypothesis Hf : well_formed f.
  Hypothesis Ht : well_formed t.
  Hypothesis Hc : copy_special f t = Ok f1.

  Lemma special_nodup : NoDup (map fst f1).
  Proof. destruct Hf as [H1 _ _], Ht as [H2 _ _]. by apply (special_facts t f f1 H2 Hc). Qed.

  Lemma special_at n : entry f1 n = entry f n \/ (special n /\ (forall x, entry f n <> Some (Dir x)) /\
     exists c, entry f1 n = Some (File c) /\ entry t n = Some (File c)).
  Proof. destruct Ht as [H2 _ _]. by apply (special_facts t f f1 H2 Hc). Qed.

  Lemma special_dir n x : entry f1 n = Some (Dir x) <-> entry f n = Some (Dir x).
  Proof. destruct (special_at n) as [->|(_&H1&c&H2&_)]; [done|]. rewrite H2. split; [done|]. intros H. by apply H1 in H. Qed.

  Lemma special_names n : entry f1 n <> None -> n <> [].
  Proof.
    destruct Hf as [_ H1 _], Ht as [_ H2 _]. rewrite entry_names in H1, H2. intros H ->.
    destruct (special_at []) as [E|(_&_&c&_&E)]; [rewrite E in H; by apply H1|]. apply H2. by rewrite E.
  Qed.

  Lemma special_keep c : entry t keep = Some (File c) -> entry f1 keep = Some (File c).
  Proof. destruct Ht as [H2 _ _]. by apply (special_facts t f f1 H2 Hc). Qed.

  Lemma special_seqpat n c w : entry t n = Some (File c) -> extension n = seqpat -> entry f w <> None -> stem w = stem n -> extension w <> seqpat ->
    entry f1 n = Some (File c).
  Proof. destruct Ht as [H2 _ _]. by apply (special_facts t f f1 H2 Hc). Qed.

  Lemma special_supplement n c : entry t (supplement n) = Some (File c) -> entry f1 n <> None -> n <> keep -> extension n <> seqpat ->
    entry f1 (supplement n) = Some (File c).
  Proof.
    intros H1 H2 H3 H4. pose proof (special_names n H2) as Hn. destruct (supplement_parts _ (stem_nonempty _ Hn)) as [Ha Hb].
    fold (supplement n) in Ha, Hb. apply (special_seqpat _ c n); [done|done| |done|done].
    destruct (special_at n) as [<-|([->|Hs]&_)]; [done|done|done].
  Qed.

  Lemma special_outcome rx f' t' : Inv rx f1 t (outcome rx) [] [] f' t' -> outcome rx f t f' t'.
  Proof.
    intros [_ _ _ _ _ _ _ _ Hd].
    assert (forall n, done_at rx f1 t (outcome rx) n (entry f' n) (entry t' n)) as Hdone.
    { intros n. apply Hd; apply not_elem_of_nil. } clear Hd.
    assert (forall n, n <> [] -> expressions (entry t' (supplement n)) = expressions (entry f1 (supplement n))) as Hexp.
    { intros n Hn. destruct (supplement_parts _ (stem_nonempty _ Hn)) as [_ Hs]. fold (supplement n) in Hs.
      specialize (Hdone (supplement n)).
      remember (entry f' (supplement n)) as ef eqn:Ef. remember (entry t' (supplement n)) as et eqn:Et.
      destruct Hdone as [H|a b H [_ Hd]|x y x' y' H _ _|x H _]; rewrite H; [done| |done|done].
      destruct Hd as [->|[Hd _]]; done. }
    split; [|split].
    - constructor. intros n. pose proof (Hdone n) as Hn.
      remember (entry f' n) as ef eqn:Ef. remember (entry t' n) as et eqn:Et.
      destruct Hn as [H|a b H [_ Hd]|x y x' y' H _ (Hm&_)|x H _]; constructor; [|done|apply mirrors_refl].
      destruct Hd as [->|[Hd1 Hd2]]; [by left|]. right. split; [done|]. fold (supplement n). rewrite Hexp; [done|]. apply special_names. by rewrite H.
    - constructor. intros n. pose proof (Hdone n) as Hn.
      remember (entry f' n) as ef eqn:Ef. remember (entry t' n) as et eqn:Et.
      destruct (special_at n) as [E|(Hs&Hx&c&E&E2)].
      + rewrite <- E. destruct Hn as [H|a b H _|x y x' y' H _ (_&Hk&_)|x H _]; rewrite H; constructor; [done|apply kept_refl].
      + destruct Hn as [H|a b H _|x y x' y' H _ _|x H _]; [congruence|by constructor|congruence..].
    - constructor.
      + intros c Hk. pose proof (special_keep c Hk) as Hk1. pose proof (Hdone keep) as Hn.
        remember (entry f' keep) as ef eqn:Ef. remember (entry t' keep) as et eqn:Et.
        destruct Hn as [H|a b H [[Hb| ->] _]|x y x' y' H _ _|x H _]; congruence.
      + intros n c w H1 H2 H3 H4 H5. pose proof (special_seqpat n c w H1 H2 H3 H4 H5) as Hk1. pose proof (Hdone n) as Hn.
        remember (entry f' n) as ef eqn:Ef. remember (entry t' n) as et eqn:Et.
        destruct Hn as [H|a b H [_ [->|[Hb _]]]|x y x' y' H _ _|x H _]; congruence.
      + intros n x y Hx Hy. apply special_dir in Hx. pose proof (Hdone n) as Hn.
        remember (entry f' n) as ef eqn:Ef. remember (entry t' n) as et eqn:Et.
        destruct Hn as [H|a b H _|x0 y0 x' y' H H' (_&_&Hs)|x0 H H']; [congruence|congruence| |].
        * exists y'. rewrite H in Hx. rewrite H' in Hy. injection Hx as <-. injection Hy as <-. done.
        * by apply H' in Hy.
  Qed.

  Lemma ends_well_listing : le_last (listing f1) (listing t) /\ no_clash (listing f1) (listing t) <->
    ends_well f1 t /\ (forall n a y, entry f1 n = Some (File a) -> entry t n <> Some (Dir y)).
  Proof.
    pose proof special_nodup as Hf1. destruct Ht as [Ht1 _ _].
    pose proof (listing_sorted f1 Hf1) as Hs.
    assert (forall z, last (listing f1) = Some z -> forall x, x ∈ listing f1 -> text_compare (fst z) (fst x) <> Lt) as Hlast.
    { revert Hs. generalize (listing f1). clear. intros l Hs z Hz x Hx. induction Hs as [|y l Hs IH HF]; [done|].
      destruct l as [|y' l]; [injection Hz as <-; apply elem_of_list_singleton in Hx as ->; apply (cmp_irrefl text_total)|].
      rewrite last_cons_ne in Hz by done. apply elem_of_cons in Hx as [->|Hx]; [|by apply IH].
      apply last_elem in Hz. rewrite Forall_forall in HF. specialize (HF z Hz). by apply (cmp_asym text_total). }
    assert (forall z, last (listing f1) = Some z -> exists e, entry f1 (fst z) = Some e /\ kind_of e = snd z) as Hze.
    { intros [n k] Hz. apply last_elem in Hz. by apply listing_elem in Hz. }
    assert (no_clash (listing f1) (listing t) <-> (forall n a y, entry f1 n = Some (File a) -> entry t n <> Some (Dir y))) as Hclash.
    { split.
      - intros H n a y Ha Hy. apply (H n); apply listing_elem; eauto.
      - intros H n Hn1 Hn2. apply listing_elem in Hn1 as ([a|x]&Ha&?); [|done|done]. apply listing_elem in Hn2 as ([b|y]&Hb&?); [done| |done].
        by eapply H. }
    rewrite Hclash. split; intros [H1 H2]; (split; [|done]).
    - intros n e He Hmax.
      destruct (last (listing f1)) as [z|] eqn:Ez.
      2:{ apply last_None in Ez. assert ((n, kind_of e) ∈ listing f1) as Hin by (apply listing_elem; eauto). rewrite Ez in Hin. by apply elem_of_nil in Hin. }
      assert (fst z = n) as Hzn.
      { destruct (Hze z eq_refl) as (e'&He'&_). specialize (Hmax (fst z)). rewrite He' in Hmax. specialize (Hmax ltac:(done)).
        specialize (Hlast z eq_refl (n, kind_of e)). specialize (Hlast ltac:(apply listing_elem; eauto)). cbn [fst] in Hlast.
        destruct (text_compare n (fst z)) eqn:E; [by apply (cmp_eq text_total) in E|done|]. by apply (cmp_gt text_total) in E. }
      destruct z as [n' k]. cbn [fst] in Hzn. subst n'. destruct (Hze (n, k) eq_refl) as (e'&He'&Hk). cbn [fst snd] in *. rewrite He in He'. injection He' as <-.
      destruct (H1 (n, k) Ez) as [Hin|Hle].
      + left. apply listing_elem in Hin as (e'&?&?); [|done]. exists e'. split; [done|congruence].
      + right. intros m Hm. destruct (entry t m) as [e'|] eqn:Em; [|done]. specialize (Hle (m, kind_of e')).
        specialize (Hle ltac:(apply listing_elem; eauto)). unfold entry_compare, pair_compare in Hle. cbn [fst snd] in Hle. intros E. by rewrite E in Hle.
    - intros [n k] Hz. destruct (Hze _ Hz) as (e&He&Hk). cbn [fst snd] in *. destruct (H1 n e He) as [(e'&He'&Hk')|Hle].
      + intros m Hm. destruct (entry f1 m) as [e'|] eqn:Em; [|done]. apply (Hlast (n, k) Hz (m, kind_of e')). apply listing_elem; eauto.
      + left. apply listing_elem; [done|]. exists e'. split; [done|congruence].
      + right. intros [m l] Hin. apply listing_elem in Hin as (e'&He'&Hl); [|done]. unfold entry_compare, pair_compare. cbn [fst snd].
        specialize (Hle m). rewrite He' in Hle. specialize (Hle ltac:(done)). destruct (text_compare n m) eqn:E; [|done|done].
        apply (cmp_eq text_total) in E as <-. destruct e as [a|x]; cbn in Hk; subst k; [|by destruct l].
        destruct e' as [b|y]; cbn in Hl; subst l; [done|]. by apply H2 with (y := y) in He.
  Qed.
End special.

Lemma soft_update_correct rx fuel : forall f t f' t', well_formed f -> well_formed t ->
  soft_update rx fuel f t = Ok (f', t') -> outcome rx f t f' t'.
Proof.
  induction fuel as [|fuel IH]; intros f t f' t' Hf Ht H; [done|]. cbn [soft_update] in H.
  destruct (copy_special f t) as [f1| | |] eqn:Ec; try done. cbn [rbind] in H.
  rewrite update_entries_merge in H by (rewrite !listing_length; lia).
  pose proof (special_nodup f t f1 Hf Ht Ec) as Hn1. destruct Ht as [Ht1 Ht2 Ht3] eqn:EHt. clear EHt. pose proof (well_formed_intro _ Ht1 Ht2 Ht3) as Ht'.
  destruct Hf as [Hf1 Hf2 Hf3] eqn:EHf. clear EHf. pose proof (well_formed_intro _ Hf1 Hf2 Hf3) as Hf'.
  apply (special_outcome f t f1 Hf' Ht' Ec).
  eapply (merge_correct rx (soft_update rx fuel) f1 t (outcome rx)); [| | | |by apply inv_start|exact H].
  - intros n x y x' y' Hx Hy Hxy. apply (special_dir f t f1 Ht' Ec) in Hx. eapply IH; [by eapply Hf3|by eapply Ht3|done].
  - by apply (special_names f t f1).
  - by apply (special_keep f t f1).
  - by apply (special_supplement f t f1).
Qed.

Lemma soft_update_succeeds rx fuel : forall f t, well_formed f -> well_formed t -> depth (Dir f) <= fuel ->
  (exists r, soft_update rx fuel f t = Ok r) <-> safe f t.
Proof.
  induction fuel as [|fuel IH]; intros f t Hf Ht Hd; [cbn in Hd; lia|]. cbn [soft_update].
  destruct (copy_special f t) as [f1|e| |] eqn:Ec; cbn [rbind].
  2,3,4: split; [by intros [r Hr]|intros [f2 H _ _ _]; congruence].
  rewrite update_entries_merge by (rewrite !listing_length; lia).
  pose proof (special_nodup f t f1 Hf Ht Ec) as Hn1.
  assert (NoDup (map fst t)) as Hn2 by (by destruct Ht).
  rewrite (merge_succeeds rx (soft_update rx fuel) f1 t (outcome rx)).
  - assert (subs_ok (soft_update rx fuel) f1 t (listing f1) (listing t) <-> (forall n x y, entry f1 n = Some (Dir x) -> entry t n = Some (Dir y) -> safe x y)) as ->.
    { assert (forall n x y, entry f1 n = Some (Dir x) -> entry t n = Some (Dir y) -> (exists r, soft_update rx fuel x y = Ok r) <-> safe x y) as Heq.
      { intros n x y Hx Hy. apply (special_dir f t f1 Ht Ec) in Hx. apply IH.
        - destruct Hf as [_ _ Hf3]. by eapply Hf3.
        - destruct Ht as [_ _ Ht3]. by eapply Ht3.
        - apply depth_entry in Hx. lia. }
      split.
      - intros H n x y Hx Hy. apply (Heq n x y Hx Hy). apply (H n x y); [| |done|done]; apply listing_elem; eauto.
      - intros H n x y _ _ Hx Hy. apply (Heq n x y Hx Hy). by eapply H. }
    pose proof (ends_well_listing f t f1 Hf Ht Ec) as Hew. split.
    + intros (H1&H2&H3). destruct (proj1 Hew (conj H1 H2)) as [H4 H5]. by eapply safe_intro.
    + intros [f2 H1 H2 H3 H4]. rewrite Ec in H1. injection H1 as <-. destruct (proj2 Hew (conj H2 H3)) as [H5 H6]. done.
  - intros n x y x' y' Hx Hy Hxy. apply (special_dir f t f1 Ht Ec) in Hx. eapply soft_update_correct; [| |exact Hxy].
    + destruct Hf as [_ _ Hf3]. by eapply Hf3.
    + destruct Ht as [_ _ Ht3]. by eapply Ht3.
  - by apply (special_names f t f1).
  - by apply (special_keep f t f1).
  - by apply (special_supplement f t f1).
  - by apply inv_start.
Qed.

Lemma copy_special_fuel t : forall f, copy_special f t <> NoFuel.
Proof.
  induction t as [|[n [c|x]] t IH]; intros f; cbn [copy_special]; [done| |done].
  assert (forall f, (let? f' := copy_over f n c in copy_special f' t) <> NoFuel) as H.
  { intros f'. unfold copy_over. destruct (entry f' n) as [[]|]; cbn [rbind]; done. }
  repeat case_match; done.
Qed.

Lemma soft_update_terminates rx fuel : forall f t, well_formed f -> well_formed t -> depth (Dir f) <= fuel -> soft_update rx fuel f t <> NoFuel.
Proof.
  induction fuel as [|fuel IH]; intros f t Hf Ht Hd; [cbn in Hd; lia|]. cbn [soft_update].
  pose proof (copy_special_fuel t f) as Hcf.
  destruct (copy_special f t) as [f1|e| |] eqn:Ec; try done. cbn [rbind].
  rewrite update_entries_merge by (rewrite !listing_length; lia).
  pose proof (special_nodup f t f1 Hf Ht Ec) as Hn1.
  assert (NoDup (map fst t)) as Hn2 by (by destruct Ht).
  apply (merge_fuel rx (soft_update rx fuel) f1 t (outcome rx)).
  - intros n x y x' y' Hx Hy Hxy. apply (special_dir f t f1 Ht Ec) in Hx. eapply soft_update_correct; [| |exact Hxy].
    + destruct Hf as [_ _ Hf3]. by eapply Hf3.
    + destruct Ht as [_ _ Ht3]. by eapply Ht3.
  - by apply (special_names f t f1).
  - by apply (special_keep f t f1).
  - by apply (special_supplement f t f1).
  - intros n x y Hx Hy. apply (special_dir f t f1 Ht Ec) in Hx. apply IH.
    + destruct Hf as [_ _ Hf3]. by eapply Hf3.
    + destruct Ht as [_ _ Ht3]. by eapply Ht3.
    + apply depth_entry in Hx. lia.
  - by apply inv_start.
Qed.

(** ** Supplementary files *)

Lemma split_lines_line w s : nl ∉ w -> split_lines (w ++ nl :: s) = w :: split_lines s.
Proof.
  induction w as [|c w IH]; intros Hw; cbn [app split_lines].
  - by rewrite decide_True.
  - rewrite decide_False; [|intros ->; apply Hw; by left]. rewrite IH; [done|]. intros H. apply Hw. by right.
Qed.

Lemma split_lines_last w : nl ∉ w -> split_lines w = [w].
Proof.
  induction w as [|c w IH]; intros Hw; cbn [split_lines]; [done|].
  rewrite decide_False; [|intros ->; apply Hw; by left]. rewrite IH; [done|]. intros H. apply Hw. by right.
Qed.

Lemma expressions_lines ls w rest : Forall (fun w => w <> [] /\ nl ∉ w) ls -> nl ∉ w ->
  expressions (Some (File (concat (map (fun w => w ++ [nl]) ls) ++ nl :: rest))) = ls /\
  expressions (Some (File (concat (map (fun w => w ++ [nl]) ls) ++ w))) = ls ++ (match w with [] => [] | _ => [w] end).
Proof.
  intros H Hw. cbn [expressions]. induction H as [|v ls [Hv Hn] _ [IH1 IH2]].
  - cbn [map concat app]. split; [cbn [split_lines]; by rewrite decide_True|]. rewrite split_lines_last by done. by destruct w.
  - cbn [map concat]. rewrite <- !app_assoc. cbn [app]. rewrite !(split_lines_line v) by done. cbn [until_empty].
    destruct v as [|c v]; [done|]. split; [by rewrite IH1|]. by rewrite IH2.
Qed.
