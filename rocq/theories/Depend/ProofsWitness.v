(** Projects for which the analysis goes wrong, and some for which it does not. *)
From Coq Require Import Ascii String Sorted.
From stdpp Require Import list list_numbers relations.
From Verif.Base Require Import Outcome Compare ListLemmas.
From Verif.Text Require Import Model.
From Verif.Failure Require Import Model.
From Verif.Prune Require Import Model Proofs.
From Verif.Depend Require Import Model Spec Proofs ProofsTop ProofsLayout.
Local Notation length := List.length.
Local Notation "⌜ s ⌝" := (list_ascii_of_string s%string).

Section compute.
  Context (w : project) (cutoff : text) (ns : list info).

  Definition used (u : nat) : list nat :=
    match ns !! u with
    | Some n => match includes_of w cutoff (file n) with Ok incs => omap (fun inc => find_node w (file n) inc ns) incs | _ => [] end
    | None => []
    end.
  Definition owned (s : nat) : list nat :=
    match ns !! s with
    | Some n =>
        if is_cpp (file n) then
          match includes_of w cutoff (file n) with
          | Ok incs => omap (fun inc => if decide (stem_of inc = stem_of (file n)) then find_node w (file n) inc ns else None) incs
          | _ => []
          end
        else []
    | None => []
    end.
  Definition linked (u : nat) : list nat :=
    used u ++ List.concat (map (fun s => if decide (u ∈ owned s) then filter (fun v => v <> u) (used s) else []) (seq 0 (length ns))).

  Lemma uses_iff u v : uses w cutoff ns u v <-> v ∈ used u.
  Proof.
    unfold uses, used. setoid_rewrite names_has. unfold has_include. split.
    - intros (inc & (n & incs & Hn & Hi & Hin) & n' & Hn' & Hf). rewrite Hn in Hn'. injection Hn' as <-. rewrite Hn, Hi.
      apply elem_of_list_omap. by exists inc.
    - destruct (ns !! u) as [n|] eqn:Hn; [|by intros []%elem_of_nil]. destruct (includes_of w cutoff (file n)) as [incs| | |] eqn:Hi; try by intros []%elem_of_nil.
      intros (inc & Hin & Hf)%elem_of_list_omap. exists inc. split; [by exists n, incs|by exists n].
  Qed.

  Lemma own_iff s h : own_header w cutoff ns s h <-> h ∈ owned s.
  Proof.
    rewrite own_owns. unfold owns, owned, has_include. split.
    - intros (inc & (n & incs & Hn & Hi & Hin) & n' & Hn' & Hf & Hc & Hs). rewrite Hn in Hn'. injection Hn' as <-. rewrite Hn, Hc, Hi.
      apply elem_of_list_omap. exists inc. split; [done|]. by rewrite decide_True.
    - destruct (ns !! s) as [n|] eqn:Hn; [|by intros []%elem_of_nil]. destruct (is_cpp (file n)) eqn:Hc; [|by intros []%elem_of_nil].
      destruct (includes_of w cutoff (file n)) as [incs| | |] eqn:Hi; try by intros []%elem_of_nil.
      intros (inc & Hin & Hf)%elem_of_list_omap. destruct (decide (stem_of inc = stem_of (file n))); [|done].
      exists inc. split; [by exists n, incs|by exists n].
  Qed.

  Lemma owned_lt s h : h ∈ owned s -> s < length ns.
  Proof. unfold owned. destruct (ns !! s) eqn:E; [|by intros []%elem_of_nil]. intros _. by eapply lookup_lt_Some. Qed.
  Lemma used_lt s h : h ∈ used s -> s < length ns.
  Proof. unfold used. destruct (ns !! s) eqn:E; [|by intros []%elem_of_nil]. intros _. by eapply lookup_lt_Some. Qed.

  Lemma link_iff u v : link w cutoff ns u v <-> v ∈ linked u.
  Proof.
    unfold link, linked. rewrite elem_of_app, <- uses_iff. apply or_iff_compat_l. rewrite elem_of_list_In, in_concat. setoid_rewrite in_map_iff.
    setoid_rewrite own_iff. setoid_rewrite uses_iff. split.
    - intros (s & Ho & Hu & Hne). eexists. split; [exists s; split; [done|]|].
      + apply elem_of_list_In, elem_of_seq. apply owned_lt in Ho. lia.
      + rewrite decide_True by done. apply elem_of_list_In, elem_of_list_filter. done.
    - intros (l & (s & <- & _) & Hv). destruct (decide (u ∈ owned s)) as [Ho|]; [|done].
      apply elem_of_list_In, elem_of_list_filter in Hv as [Hne Hv]. by exists s.
  Qed.

  Definition ranked (next : nat -> list nat) (rank : nat -> nat) : bool :=
    forallb (fun u => forallb (fun v => rank v <? rank u) (next u)) (seq 0 (length ns)).

  Lemma ranked_tc (R : nat -> nat -> Prop) next rank : (forall u v, R u v -> u < length ns /\ v ∈ next u) -> ranked next rank = true ->
    forall u v, tc R u v -> rank v < rank u.
  Proof.
    intros HR Hr. assert (Hstep : forall u v, R u v -> rank v < rank u).
    { intros u v [Hu Hv]%HR. unfold ranked in Hr. rewrite forallb_forall in Hr. specialize (Hr u). rewrite forallb_forall in Hr.
      apply Nat.ltb_lt, Hr; [apply elem_of_list_In, elem_of_seq; lia|by apply elem_of_list_In]. }
    intros u v H. induction H as [u v H|u v x H _ IH]; [by apply Hstep|]. apply Hstep in H. lia.
  Qed.

  Lemma acyclic_uses rank : ranked used rank = true -> forall u, ~ tc (uses w cutoff ns) u u.
  Proof.
    intros Hr u H. apply (ranked_tc _ used rank) in H; [lia| |done]. intros a b Hab%uses_iff. split; [by eapply used_lt|done].
  Qed.
  Lemma acyclic_link rank : ranked linked rank = true -> forall u, ~ tc (link w cutoff ns) u u.
  Proof.
    intros Hr u H. apply (ranked_tc _ linked rank) in H; [lia| |done]. intros a b Hab. split; [|by apply link_iff].
    destruct Hab as [Hab%uses_iff|(s & (n & inc & Hn & Hc & (n' & incs & m & _ & _ & _ & Hm & _) & _) & _)]; [by eapply used_lt|by eapply lookup_lt_Some].
  Qed.

  Definition paired_check : bool :=
    forallb (fun s =>
      forallb (fun h => (h =? S s) && match ns !! h with Some m => negb (is_cpp (file m)) | None => false end) (owned s)
      && match ns !! s, ns !! S s with
         | Some n, Some m => negb (is_cpp (file n) && bool_decide (stem_of (file m) = stem_of (file n))) || bool_decide (S s ∈ owned s)
         | _, _ => true
         end) (seq 0 (length ns)).

  Lemma paired_check_ok : paired_check = true -> paired w cutoff ns.
  Proof.
    unfold paired_check. rewrite forallb_forall. intros H.
    assert (H1 : forall s h, h ∈ owned s -> h = S s /\ forall m, ns !! h = Some m -> is_cpp (file m) = false).
    { intros s h Hh. pose proof (owned_lt _ _ Hh) as Hs. specialize (H s). rewrite andb_true_iff, forallb_forall in H.
      destruct H as [H _]; [apply elem_of_list_In, elem_of_seq; lia|]. specialize (H h (proj1 (elem_of_list_In _ _) Hh)).
      apply andb_true_iff in H as [H1%Nat.eqb_eq H2]. split; [done|]. intros m Hm. rewrite Hm in H2. by apply negb_true_iff in H2. }
    split.
    - intros s h Ho%own_iff. by apply H1.
    - intros s h m Ho%own_iff Hm. by apply (H1 s h).
    - intros s n m Hn Hm Hc Hs. apply own_iff. specialize (H s). rewrite andb_true_iff, Hn, Hm in H.
      destruct H as [_ H]; [apply elem_of_list_In, elem_of_seq; apply lookup_lt_Some in Hn; lia|].
      rewrite Hc, (bool_decide_eq_true_2 _ Hs) in H. by apply bool_decide_eq_true in H.
  Qed.

  Definition layout_check : bool :=
    forallb (fun s =>
      negb (bool_decide (s ∈ owned s))
      && forallb (fun h => forallb (fun h' => h =? h') (owned s)) (owned s)
      && match ns !! s with
         | Some n => negb (is_cpp (file n)) || forallb (fun v => match ns !! v with
             | Some m => negb (bool_decide (take (S (length (stem_of (file n)))) (file_name (file m)) = stem_of (file n) ++ ["."%char]))
                         || (v =? s) || (is_header (file m) && bool_decide (v ∈ owned s))
             | None => true end) (seq 0 (length ns))
         | None => true
         end) (seq 0 (length ns)).

  Lemma layout_check_ok : layout_check = true -> layout w cutoff ns.
  Proof.
    unfold layout_check. rewrite forallb_forall. intros H. split.
    - intros s v n m r Hn Hc Hm Hr. specialize (H s). rewrite !andb_true_iff, Hn in H.
      destruct H as [_ H]; [apply elem_of_list_In, elem_of_seq; apply lookup_lt_Some in Hn; lia|].
      rewrite Hc in H. cbn [negb orb] in H. rewrite forallb_forall in H. specialize (H v). rewrite Hm in H.
      rewrite bool_decide_eq_true_2 in H.
      2:{ rewrite Hr. change ("."%char :: r) with (["."%char] ++ r). rewrite app_assoc. rewrite take_app_alt; [done|]. rewrite app_length. cbn. lia. }
      cbn [negb orb] in H. apply orb_true_iff in H; [|apply elem_of_list_In, elem_of_seq; apply lookup_lt_Some in Hm; lia].
      destruct H as [H%Nat.eqb_eq|[H1 H2%bool_decide_eq_true]%andb_true_iff]; [by left|right]. split; [done|]. by apply own_iff.
    - intros s v v' Hv%own_iff Hv'%own_iff. pose proof (owned_lt _ _ Hv) as Hs. specialize (H s). rewrite !andb_true_iff in H.
      destruct H as [[_ H] _]; [apply elem_of_list_In, elem_of_seq; lia|]. rewrite forallb_forall in H.
      specialize (H v (proj1 (elem_of_list_In _ _) Hv)). rewrite forallb_forall in H. apply Nat.eqb_eq, H. by apply elem_of_list_In.
    - intros s Hs%own_iff. pose proof (owned_lt _ _ Hs) as Hl. specialize (H s). rewrite !andb_true_iff in H.
      destruct H as [[H _] _]; [apply elem_of_list_In, elem_of_seq; lia|]. by rewrite (bool_decide_eq_true_2 _ Hs) in H.
  Qed.

  Lemma depends_used u v : v ∈ used u -> depends w cutoff ns u v.
  Proof. intros H. left. by apply uses_iff. Qed.
  Lemma depends_owned u v : u ∈ owned v -> depends w cutoff ns u v.
  Proof. intros H. right. by apply own_iff. Qed.
End compute.

(** ** Projects *)

Definition P (s : string) : list text := parse (list_ascii_of_string s).
Definition including (l : list string) : text :=
  List.concat (map (fun s => ⌜"#include """⌝ ++ list_ascii_of_string s ++ ⌜""""⌝ ++ [nl]) l).
Fixpoint assoc {A} (d : A) (l : list (string * A)) (p : list text) : A :=
  match l with
  | [] => d
  | (k, v) :: l => if decide (P k = p) then v else assoc d l p
  end.

(** The sources are in /p/s, the tests in /p/t; the time of the last run is 10. *)
Definition proj (fs : list (string * (N * list string))) (ps : option (N * text)) (fl : option text) (mat : list text -> option (N * list N)) : project :=
  Project (P "/p/s") (P "/p/t") [] (map (fun x => P (fst x)) fs) (fun p => fst (assoc (0%N, []) fs p))
    (fun p => including (snd (assoc (0%N, []) fs p))) (fun p => if decide (p ∈ map (fun x => P (fst x)) fs) then Some p else None)
    (Some 100%N) (Some 10%N) ps fl mat.
Definition cut : text := ⌜"namespace"⌝.
Definition nodes (w : project) : list info := match make_nodes w 10 with Ok l => l | _ => [] end.

(** a.cpp and b.cpp, with their headers, use each other. *)
Definition cyclic : project := proj
  [("/p/s/x/a.cpp", (5%N, ["a.hpp"; "b.hpp"])); ("/p/s/x/a.hpp", (5%N, ["s.hpp"])); ("/p/s/x/b.cpp", (5%N, ["b.hpp"; "a.hpp"]));
   ("/p/s/x/b.hpp", (5%N, [])); ("/p/s/x/s.hpp", (20%N, [])); ("/p/t/bTest.cpp", (5%N, ["x/b.hpp"])); ("/p/t/aTest.cpp", (5%N, ["x/a.hpp"]))]%string
  None None (fun _ => None).
(** The header of a.cpp is included by another header which a.cpp includes. *)
Definition furnished : project := proj
  [("/p/s/x/a.cpp", (5%N, ["a.hpp"; "b.hpp"; "z.hpp"])); ("/p/s/x/a.hpp", (5%N, [])); ("/p/s/x/b.hpp", (5%N, ["a.hpp"]));
   ("/p/s/x/z.hpp", (20%N, [])); ("/p/t/tTest.cpp", (5%N, ["x/b.hpp"]))]%string None None (fun _ => None).
(** Headers including each other *)
Definition mutual : project := proj
  [("/p/s/x/a.hpp", (5%N, ["b.hpp"; "z.hpp"])); ("/p/s/x/b.hpp", (5%N, ["a.hpp"])); ("/p/s/x/z.hpp", (20%N, []));
   ("/p/t/tTest.cpp", (5%N, ["x/b.hpp"]))]%string None None (fun _ => None).
(** Two source files with one name *)
Definition doubled : project := proj
  [("/p/s/d/a.cpp", (5%N, ["a.hpp"; "z.hpp"])); ("/p/s/d/a.hpp", (5%N, [])); ("/p/s/d/z.hpp", (20%N, [])); ("/p/s/e/a.cpp", (5%N, []));
   ("/p/t/T.cpp", (5%N, ["d/a.hpp"]))]%string None None (fun _ => None).
(** A name which comes between those of a source file and its header *)
Definition dotted : project := proj
  [("/p/s/d/a.cpp", (5%N, ["a.hpp"; "z.hpp"])); ("/p/s/d/a.hpp", (5%N, [])); ("/p/s/d/z.hpp", (20%N, [])); ("/p/s/e/a.d.hpp", (5%N, []));
   ("/p/t/T.cpp", (5%N, ["d/a.hpp"]))]%string None None (fun _ => None).
(** A header directly in the folder of sources *)
Definition bare : project := proj
  [("/p/s/a.hpp", (20%N, [])); ("/p/t/T.cpp", (5%N, ["a.hpp"]))]%string None None (fun _ => None).
(** Something was removed from the materials. *)
Definition removed : project := proj [("/p/t/T.cpp", (5%N, []))]%string None None (fun _ => Some (20%N, [])).
(** Here all is well: T.cpp depends on z.hpp, U.cpp does not; V.cpp passed after the change of z.hpp, W.cpp failed. *)
Definition sound : project := proj
  [("/p/s/d/a.cpp", (5%N, ["a.hpp"; "z.hpp"])); ("/p/s/d/a.hpp", (5%N, [])); ("/p/s/d/z.hpp", (20%N, [])); ("/p/s/e/b.hpp", (5%N, []));
   ("/p/t/T.cpp", (5%N, ["d/a.hpp"; "T.hpp"])); ("/p/t/T.hpp", (5%N, [])); ("/p/t/U.cpp", (5%N, ["e/b.hpp"]));
   ("/p/t/V.cpp", (5%N, ["d/z.hpp"])); ("/p/t/W.cpp", (5%N, []))]%string
  (Some (30%N, ⌜"V.cpp"⌝ ++ [nl])) (Some (⌜"W.cpp"⌝ ++ [nl])) (fun _ => None).

Ltac concrete := first [by vm_compute | apply (bool_decide_unpack _); by vm_compute].
(** The test [u] does not notice the change of [v]; [H] shows the dependence. *)
Ltac not_run u v H :=
  exists u, v; eexists _, _, _; split; [concrete|]; split; [done|]; split; [by vm_compute|]; split; [by vm_compute|];
  split; [by vm_compute|]; split; [by vm_compute|]; split; [done|]; split; [H|]; split; [by vm_compute|];
  split; [by vm_compute|]; split; [done|]; split; [by vm_compute|]; apply not_elem_of_nil || concrete.

Ltac by_use v := eapply (rtc_l _ _ v); [apply depends_used; concrete|].
Ltac by_source v := eapply (rtc_l _ _ v); [apply depends_owned; concrete|].

Definition height (l : list nat) (u : nat) : nat := default 0 (l !! u).

Lemma cyclic_missed : paired cyclic cut (nodes cyclic) /\ (forall u, ~ tc (uses cyclic cut (nodes cyclic)) u u)
  /\ missed cyclic cut 10 (nodes cyclic) [⌜"bTest.cpp"⌝].
Proof.
  split; [apply paired_check_ok; by vm_compute|]. split; [apply (acyclic_uses _ _ _ (height [2; 1; 2; 2; 1; 2; 0])); by vm_compute|].
  not_run 5 6 ltac:(by_use 4; by_source 3; by_use 1; by_use 6; constructor).
Qed.

Lemma furnished_missed : layout furnished cut (nodes furnished) /\ (forall u, ~ tc (uses furnished cut (nodes furnished)) u u)
  /\ missed furnished cut 10 (nodes furnished) [⌜"tTest.cpp"⌝].
Proof.
  split; [apply layout_check_ok; by vm_compute|]. split; [apply (acyclic_uses _ _ _ (height [3; 0; 1; 2; 0])); by vm_compute|].
  not_run 3 4 ltac:(by_use 2; by_use 1; by_source 0; by_use 4; constructor).
Qed.

Lemma mutual_missed : layout mutual cut (nodes mutual) /\ missed mutual cut 10 (nodes mutual) [⌜"tTest.cpp"⌝].
Proof.
  split; [apply layout_check_ok; by vm_compute|]. not_run 2 3 ltac:(by_use 1; by_use 0; by_use 3; constructor).
Qed.

Lemma doubled_missed : (forall u, ~ tc (link doubled cut (nodes doubled)) u u)
  /\ (forall i j n m, nodes doubled !! i = Some n -> nodes doubled !! j = Some m -> file n = file m -> i = j)
  /\ missed doubled cut 10 (nodes doubled) [⌜"T.cpp"⌝].
Proof.
  split; [apply (acyclic_link _ _ _ (height [2; 2; 0; 1; 0])); by vm_compute|]. split.
  - assert (NoDup (file <$> nodes doubled)) as Hd by concrete. intros i j n m Hi Hj E.
    apply (NoDup_lookup _ _ _ (file n) Hd); rewrite list_lookup_fmap; [by rewrite Hi|]. rewrite Hj. cbn. by rewrite E.
  - not_run 0 4 ltac:(by_use 3; by_source 1; by_use 4; constructor).
Qed.

Lemma dotted_missed : (forall u, ~ tc (link dotted cut (nodes dotted)) u u)
  /\ NoDup (map (fun n => file_name (file n)) (nodes dotted))
  /\ missed dotted cut 10 (nodes dotted) [⌜"T.cpp"⌝].
Proof.
  split; [apply (acyclic_link _ _ _ (height [2; 2; 0; 1; 0])); by vm_compute|]. split; [concrete|].
  not_run 0 4 ltac:(by_use 3; by_source 1; by_use 4; constructor).
Qed.

Lemma bare_missed : exists w prune f h name,
  stamp w = Some prune /\ f ∈ listing w /\ f = tests w ++ [⌜"T.cpp"⌝]
  /\ contents w f = ⌜"#include """⌝ ++ name ++ ⌜""""⌝ ++ [nl] /\ h ∈ listing w /\ h = sources w ++ [name]
  /\ parent_path f ++ [name] ∉ listing w /\ (prune < written w h)%N /\ tests_to_run w cut = Ok (Some []).
Proof.
  exists bare, 10%N, (P "/p/t/T.cpp"), (P "/p/s/a.hpp"), ⌜"a.hpp"⌝.
  split; [done|]. split; [concrete|]. split; [by vm_compute|]. split; [by vm_compute|]. split; [concrete|]. split; [by vm_compute|].
  split; [concrete|]. split; by vm_compute.
Qed.

Lemma removed_missed : exists w prune rel t ts,
  stamp w = Some prune /\ tests w ++ rel ∈ listing w /\ materials w rel = Some (t, ts) /\ (prune < t)%N
  /\ passes w = None /\ tests_to_run w cut = Ok (Some []).
Proof.
  exists removed, 10%N, [⌜"T.cpp"⌝], 20%N, []. split; [done|]. split; [concrete|]. split; [done|]. split; [done|]. split; [done|]. by vm_compute.
Qed.

Lemma sound_ok : NoDup (listing sound) /\ make_nodes sound 10 = Ok (nodes sound) /\ layout sound cut (nodes sound)
  /\ (forall u, no_cycle sound cut (nodes sound) u)
  /\ read_tests (snd <$> passes sound) [] = Ok [[⌜"V.cpp"⌝]] /\ read_tests (failures sound) [] = Ok [[⌜"W.cpp"⌝]]
  /\ tests_to_run sound cut = Ok (Some [[⌜"T.cpp"⌝]; [⌜"W.cpp"⌝]]).
Proof.
  split; [concrete|]. split; [by vm_compute|]. split; [apply layout_check_ok; by vm_compute|]. split.
  { intros u v _. apply (acyclic_link _ _ _ (height [3; 2; 1; 1; 0; 2; 1; 0; 0])). by vm_compute. }
  split; [by vm_compute|]. split; by vm_compute.
Qed.

Lemma sound_change : last_change sound cut (nodes sound) 0 20.
Proof.
  split.
  - exists 8. eexists. split; [|split; [by vm_compute|done]]. by_use 6; by_source 5; by_use 8; constructor.
  - intros v n _ Hn. assert (Forall (fun n => time n <= 20)%N (nodes sound)) as HF by concrete.
    rewrite Forall_forall in HF. apply HF. by eapply elem_of_list_lookup_2.
Qed.

Lemma outdated : exists w, make_nodes w 10 = Throw RuntimeError /\ tests_to_run w cut = Throw RuntimeError.
Proof. exists (proj [("/p/t/T.cpp", (100%N, []))]%string None None (fun _ => None)). split; by vm_compute. Qed.

Lemma make_nodes_iff w prune :
  (exists ns, make_nodes w prune = Ok ns) <->
  forall e f, executable w = Some e -> f ∈ listing w -> is_cpp f = true \/ is_header f = true -> (written w f < e)%N.
Proof.
  unfold make_nodes. split.
  - intros [ns H]. destruct (add_files w prune (listing w)) as [l| | |] eqn:El; try done. apply add_files_ok in El as [_ El].
    intros e f He Hf Hc. apply (El e f He Hf). unfold is_code. by apply orb_true_iff.
  - intros H. rewrite add_files_total; [by eexists|]. intros e f He Hf Hc. apply (H e f He Hf). by apply orb_true_iff.
Qed.

Lemma tests_to_run_throws w cutoff prune e f : stamp w = Some prune -> executable w = Some e -> f ∈ listing w ->
  is_cpp f = true \/ is_header f = true -> (e <= written w f)%N -> tests_to_run w cutoff = Throw RuntimeError.
Proof.
  intros Hs He Hf Hc Hle. unfold tests_to_run, find_stale_tests, analyse, make_nodes. rewrite Hs.
  rewrite (add_files_throw w prune (listing w) e f); [done|done|done| |done]. by apply orb_true_iff.
Qed.

Lemma tests_to_run_first w cutoff : stamp w = None -> tests_to_run w cutoff = Ok None.
Proof. intros H. unfold tests_to_run. by rewrite H. Qed.
