(** Model of static graphs: Source/sequoia/Maths/Graph/StaticGraphDetails.hpp L26-L64, StaticGraphConfig.hpp L18-L32,
    and GraphDetails.hpp L70-L74. *)
From Coq Require Import NArith.
From stdpp Require Import list.
From Verif.Base Require Import Outcome.
From Verif.PartSeq Require Import Model StaticModel.
From Verif.Graph Require Import Model ModelInit.
Local Open Scope res_scope.

(** is_embedded(Flavour), StaticGraphConfig.hpp L21. *)
Definition is_embedded (fl : flavour) : bool := match fl with Embedded => true | _ => false end.

(** to_index_max and static_edge_index_type_generator, StaticGraphDetails.hpp L26-L64: the greatest value of the index type,
    which has 8, 16 or (size_t) 64 bits. *)
Definition max_index (fl : flavour) (size order : N) : N :=
  (if (order <? 255) && (negb (is_embedded fl) || (size <? 255)) then 255
   else if (order <? 65535) && (negb (is_embedded fl) || (size <? 65535)) then 65535
   else 2 ^ 64 - 1)%N.

(** num_static_edges, GraphDetails.hpp L70-L74; the product is assumed not to overflow. *)
Definition static_edges (fl : flavour) (size : N) : N :=
  match fl with Directed => size | _ => (2 * size)%N end.

Section static.
  Context {W : Type} `{!EqDecision W}.

  (** make_edges, Connectivity.hpp L920-L925, into the storage of StaticGraphConfig.hpp L23-L28: an undirected graph's edges are
      stored first (L937) and sorted there, those of the others are looked over first (L1141).  The edges stored are the result. *)
  Definition static_construct (fuel : nat) (fl : flavour) (m : wmode W) (size order : N) (rows : graph W) : res (graph W) :=
    let store := sp_make fuel (N.to_nat (max_index fl size order)) (N.to_nat order) (N.to_nat (static_edges fl size)) in
    match fl with
    | Undirected => let? _ := store rows in construct fl m rows
    | _ => let? rows := construct fl m rows in let? _ := store rows in Ok rows
    end.
End static.
