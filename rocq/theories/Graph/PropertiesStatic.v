(** C28: static graphs. *)
From Coq Require Import NArith.
From stdpp Require Import list.
From Verif.Base Require Import Outcome.
From Verif.Graph Require Import Model Spec ModelInit SpecInit ModelStatic ProofsTop ProofsStatic.

(** Provided the number of edges stored fits into the index type.  Missing: when it does not, see below. *)
Theorem C28_construct_partial : forall (W : Type) (Weq : EqDecision W) fl m size order (rows : graph W),
  mode_ok m -> graph_ok fl rows -> (order < 2 ^ 64)%N ->
  length rows = N.to_nat order -> length (mjoin rows) = N.to_nat (static_edges fl size) ->
  (static_edges fl size <= max_index fl size order)%N ->
  exists g, (forall fuel, length rows <= fuel -> static_construct fuel fl m size order rows = Ok g)
    /\ graph_ok fl g /\ same_edges g rows.
Proof. exact @static_accepts. Qed.
Print Assumptions C28_construct_partial.

Theorem C28_indices_fit_partial : forall (W : Type) (Weq : EqDecision W) fl size order (rows : graph W) i k e,
  graph_ok fl rows -> (order < 2 ^ 64)%N -> length rows = N.to_nat order -> length (mjoin rows) = N.to_nat (static_edges fl size) ->
  (static_edges fl size <= max_index fl size order)%N ->
  row rows i !! k = Some e ->
  (N.of_nat i <= max_index fl size order /\ N.of_nat (tgt e) <= max_index fl size order /\ N.of_nat k <= max_index fl size order
   /\ (fl = Embedded -> N.of_nat (comp e) <= max_index fl size order))%N.
Proof. exact @static_indices_fit. Qed.
Print Assumptions C28_indices_fit_partial.

(** Otherwise every valid initializer is refused, *)
Theorem C28_too_many_edges : forall (W : Type) (Weq : EqDecision W) fuel fl m size order (rows : graph W),
  mode_ok m -> graph_ok fl rows ->
  length rows = N.to_nat order -> length (mjoin rows) = N.to_nat (static_edges fl size) ->
  (max_index fl size order < static_edges fl size)%N ->
  static_construct fuel fl m size order rows = Throw OutOfRange.
Proof. exact @static_refuses. Qed.
Print Assumptions C28_too_many_edges.

(** and that is so for these Sizes and Orders. *)
Theorem C28_too_many_edges_when : forall fl size order,
  (2 * size < 2 ^ 64)%N ->
  (max_index fl size order < static_edges fl size)%N <->
  match fl with
  | Directed => (order < 255 /\ 255 < size) \/ (255 <= order < 65535 /\ 65535 < size)
  | Undirected => (order < 255 /\ 127 < size) \/ (255 <= order < 65535 /\ 32767 < size)
  | Embedded => (order < 255 /\ 127 < size < 255) \/ (order < 65535 /\ 32767 < size < 65535)
  end%N.
Proof. exact too_small. Qed.
Print Assumptions C28_too_many_edges_when.

Theorem C28_directed_refuted :
  static_construct 256 Directed NoWeight 256 1 (many_loops 256) = Throw OutOfRange /\ graph_ok Directed (many_loops 256).
Proof. exact static_directed_fails. Qed.
Print Assumptions C28_directed_refuted.

Theorem C28_undirected_refuted :
  static_construct 256 Undirected NoWeight 128 1 (many_loops 256) = Throw OutOfRange
  /\ exists g, construct Undirected NoWeight (many_loops 256) = Ok g.
Proof. exact static_undirected_fails. Qed.
Print Assumptions C28_undirected_refuted.

Theorem C28_embedded_refuted :
  static_construct 256 Embedded NoWeight 128 1 (many_embedded_loops 128) = Throw OutOfRange
  /\ exists g, construct Embedded NoWeight (many_embedded_loops 128) = Ok g.
Proof. exact static_embedded_fails. Qed.
Print Assumptions C28_embedded_refuted.

Example C28_example : graph_ok Directed [[Edge 1 0 5; Edge 0 0 6]; [Edge 0 0 7]]
  /\ @length (list (edge nat)) [[Edge 1 0 5; Edge 0 0 6]; [Edge 0 0 7]] = N.to_nat 2
  /\ length (mjoin [[Edge 1 0 5; Edge 0 0 6]; [Edge 0 0 7]]) = N.to_nat (static_edges Directed 3)
  /\ (static_edges Directed 3 <= max_index Directed 3 2)%N
  /\ static_construct 2 Directed Unordered 3 2 [[Edge 1 0 5; Edge 0 0 6]; [Edge 0 0 7]] = Ok [[Edge 1 0 5; Edge 0 0 6]; [Edge 0 0 7]].
Proof.
  split; [|split; [done|split; [done|split; [done|vm_compute; reflexivity]]]].
  intros i e He. destruct i as [|[|i]]; cbn in He; [| |by apply elem_of_nil in He];
    repeat (apply elem_of_cons in He as [->|He]; [cbn; auto|]); by apply elem_of_nil in He.
Qed.
