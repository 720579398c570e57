From Coq Require Import NArith.
From stdpp Require Import list.
From Verif.Base Require Import Outcome ListLemmas.
From Verif.PartSeq Require Import Model StaticModel Spec ProofsStatic.
From Verif.Graph Require Import Model Spec ModelInit SpecInit ModelStatic ProofsBase ProofsCount ProofsInit ProofsInitShared ProofsTop.
Local Open Scope res_scope.

Lemma max_index_pos fl size order : (255 <= max_index fl size order)%N.
Proof. unfold max_index. repeat destruct (_ && _)%bool; [lia..|]. vm_compute. discriminate. Qed.

Lemma max_index_order fl size order : (order < 2 ^ 64)%N -> (order <= max_index fl size order)%N.
Proof.
  unfold max_index. intros H. destruct ((order <? 255)%N && _)%bool eqn:E1.
  - apply andb_prop in E1 as [E1 _]. apply N.ltb_lt in E1. lia.
  - destruct ((order <? 65535)%N && _)%bool eqn:E2; [|lia]. apply andb_prop in E2 as [E2 _]. apply N.ltb_lt in E2. lia.
Qed.

Lemma list_join_app_len {A} (l1 l2 : list (list A)) r : length (mjoin (l1 ++ r :: l2)) = length (mjoin l1) + (length r + length (mjoin l2)).
Proof.
  induction l1 as [|x l1 IH]; [cbn; by rewrite app_length|]. change (length (x ++ mjoin (l1 ++ r :: l2)) = length (x ++ mjoin l1) + (length r + length (mjoin l2))).
  rewrite !app_length, IH. lia.
Qed.

Section static.
  Context {W : Type} `{!EqDecision W}.
  Implicit Types rows g : graph W.

  Lemma static_accepts fl m size order rows :
    mode_ok m -> graph_ok fl rows -> (order < 2 ^ 64)%N ->
    length rows = N.to_nat order -> length (mjoin rows) = N.to_nat (static_edges fl size) ->
    (static_edges fl size <= max_index fl size order)%N ->
    exists g, (forall fuel, length rows <= fuel -> static_construct fuel fl m size order rows = Ok g)
      /\ graph_ok fl g /\ same_edges g rows.
  Proof.
    intros Hm Hok Ho Hl He Hmax. destruct (construct_accepts W _ fl m rows Hm Hok) as (g & Hg & Hgok & Hsame & Hid & _).
    exists g. split; [|done]. intros fuel Hf. pose proof (max_index_order fl size order Ho) as Hio.
    assert (Hst : exists s, forall fuel, length rows <= fuel -> sp_make fuel (N.to_nat (max_index fl size order)) (N.to_nat order) (N.to_nat (static_edges fl size)) rows = Ok s).
    { destruct (static_sequence (N.to_nat (max_index fl size order)) rows) as (s & Hs & _).
      - rewrite He. lia.
      - rewrite Hl. lia.
      - exists s. intros k Hk. rewrite <- Hl, <- He. by apply Hs. }
    destruct Hst as [s Hs]. unfold static_construct. destruct fl.
    - rewrite Hg. cbn [rbind]. rewrite (Hid ltac:(done)). by rewrite Hs.
    - rewrite Hs by done. cbn [rbind]. done.
    - rewrite Hg. cbn [rbind]. rewrite (Hid ltac:(done)). by rewrite Hs.
  Qed.

  Lemma static_refuses fuel fl m size order rows :
    mode_ok m -> graph_ok fl rows ->
    length rows = N.to_nat order -> length (mjoin rows) = N.to_nat (static_edges fl size) ->
    (max_index fl size order < static_edges fl size)%N ->
    static_construct fuel fl m size order rows = Throw OutOfRange.
  Proof.
    intros Hm Hok Hl He Hmax. destruct (construct_accepts W _ fl m rows Hm Hok) as (g & Hg & _ & _ & Hid & _).
    assert (Hst : sp_make fuel (N.to_nat (max_index fl size order)) (N.to_nat order) (N.to_nat (static_edges fl size)) rows = Throw OutOfRange).
    { apply sp_make_shape; [done|]. rewrite He. lia. }
    unfold static_construct. destruct fl.
    - rewrite Hg. cbn [rbind]. rewrite (Hid ltac:(done)). by rewrite Hst.
    - by rewrite Hst.
    - rewrite Hg. cbn [rbind]. rewrite (Hid ltac:(done)). by rewrite Hst.
  Qed.

  Lemma length_row_mjoin rows i : length (row rows i) <= length (mjoin rows).
  Proof.
    destruct (decide (i < length rows)) as [Hi|Hi]; [|rewrite row_ge by lia; cbn; lia].
    pose proof (row_lt rows i Hi) as H. rewrite <- (take_drop_middle _ _ _ H) at 2. rewrite list_join_app_len. lia.
  Qed.

  (** The numbers of nodes, of partitions and of edges fit into the index type. *)
  Lemma static_indices_fit fl size order rows i k e :
    graph_ok fl rows -> (order < 2 ^ 64)%N -> length rows = N.to_nat order -> length (mjoin rows) = N.to_nat (static_edges fl size) ->
    (static_edges fl size <= max_index fl size order)%N ->
    row rows i !! k = Some e ->
    (N.of_nat i <= max_index fl size order /\ N.of_nat (tgt e) <= max_index fl size order /\ N.of_nat k <= max_index fl size order
     /\ (fl = Embedded -> N.of_nat (comp e) <= max_index fl size order))%N.
  Proof.
    intros Hok Ho Hl He Hmax Hrow. pose proof (max_index_order fl size order Ho) as Hio.
    assert (Hi : i < length rows) by by eapply row_some_lt. assert (Hin : e ∈ row rows i) by by eapply elem_of_list_lookup_2.
    assert (Ht : tgt e < length rows) by (by eapply (graph_ok_in_range fl)). pose proof (length_row_mjoin rows i).
    apply lookup_lt_Some in Hrow as Hk. split; [lia|]. split; [lia|]. split; [lia|]. intros ->.
    destruct (Hok i k e Hrow) as (e' & He' & _). apply lookup_lt_Some in He'. pose proof (length_row_mjoin rows (tgt e)). lia.
  Qed.
End static.

(** When the index type is too small. *)
Lemma too_small fl size order :
  (2 * size < 2 ^ 64)%N ->
  (max_index fl size order < static_edges fl size)%N <->
  match fl with
  | Directed => (order < 255 /\ 255 < size) \/ (255 <= order < 65535 /\ 65535 < size)
  | Undirected => (order < 255 /\ 127 < size) \/ (255 <= order < 65535 /\ 32767 < size)
  | Embedded => (order < 255 /\ 127 < size < 255) \/ (order < 65535 /\ 32767 < size < 65535)
  end%N.
Proof.
  intros H. unfold max_index, static_edges, is_embedded. change (2 ^ 64 - 1)%N with 18446744073709551615%N. change (2 ^ 64)%N with 18446744073709551616%N in H.
  destruct fl; cbn [negb orb]; rewrite ?andb_true_r.
  - destruct (N.ltb_spec order 255); [lia|]. destruct (N.ltb_spec order 65535); lia.
  - destruct (N.ltb_spec order 255); [lia|]. destruct (N.ltb_spec order 65535); lia.
  - destruct (N.ltb_spec order 255), (N.ltb_spec size 255), (N.ltb_spec order 65535), (N.ltb_spec size 65535); cbn [andb]; lia.
Qed.

(** One node with many loops. *)
Definition many_loops (n : nat) : graph unit := [replicate n (Edge 0 0 tt)].
Definition many_embedded_loops (n : nat) : graph unit := [concat (map (fun k => [Edge 0 (2 * k + 1) tt; Edge 0 (2 * k) tt]) (seq 0 n))].

Lemma static_directed_fails : static_construct 256 Directed NoWeight 256 1 (many_loops 256) = Throw OutOfRange
  /\ graph_ok Directed (many_loops 256).
Proof.
  split; [vm_compute; reflexivity|]. intros i e He. assert (i = 0) as -> by (destruct i; [done|destruct i; by apply elem_of_nil in He]).
  apply elem_of_replicate in He as [-> _]. cbn. lia.
Qed.

Lemma static_undirected_fails : static_construct 256 Undirected NoWeight 128 1 (many_loops 256) = Throw OutOfRange
  /\ exists g, construct Undirected NoWeight (many_loops 256) = Ok g.
Proof. split; [vm_compute; reflexivity|]. eexists. vm_compute. reflexivity. Qed.

Lemma static_embedded_fails : static_construct 256 Embedded NoWeight 128 1 (many_embedded_loops 128) = Throw OutOfRange
  /\ exists g, construct Embedded NoWeight (many_embedded_loops 128) = Ok g.
Proof. split; [vm_compute; reflexivity|]. eexists. vm_compute. reflexivity. Qed.
