(** Properties of the meta data of edges (C117). *)
From stdpp Require Import list.
From Verif.Base Require Import Outcome.
From Verif.Graph Require Import Model Spec ModelMeta SpecMeta ProofsMeta.

(** Meta data make no difference to anything else. *)
Theorem C117_join_plain : forall (W M : Type) (Weq : EqDecision W) fl n1 n2 (m1 m2 : M) (w : W) g,
  plainly (join_m fl n1 n2 m1 m2 w g) = join fl n1 n2 w (plain g).
Proof. exact (fun W M Weq => join_plain). Qed.
Print Assumptions C117_join_plain.

Theorem C117_insert_join_plain : forall (W M : Type) (Weq : EqDecision W) i1 k1 i2 k2 (m1 m2 : M) (w : W) g,
  plainly (insert_join_m i1 k1 i2 k2 m1 m2 w g) = insert_join i1 k1 i2 k2 w (plain g).
Proof. exact (fun W M Weq => insert_join_plain). Qed.
Print Assumptions C117_insert_join_plain.

Theorem C117_erase_plain : forall (W M : Type) (Weq : EqDecision W) fl s k (g : graph (W * M)),
  plainly (erase_edge_m fl s k g) = erase_edge fl s k (plain g).
Proof. exact (fun W M Weq => erase_plain). Qed.
Print Assumptions C117_erase_plain.

(** The first meta data go to the half edge of the first node, the second ones to that of the second; those of directed graphs are lost. *)
Theorem C117_join : forall (W M : Type) (Weq : EqDecision W) fl n1 n2 (m1 m2 : M) (w : W) g g',
  join_m fl n1 n2 m1 m2 w g = Ok g' ->
  forall j, metas g' j = metas g j ++ (if decide (j = n1) then [m1] else []) ++
    match fl with Directed => [] | _ => if decide (j = n2) then [m2] else [] end.
Proof. exact (fun W M Weq => join_metas). Qed.
Print Assumptions C117_join.

Theorem C117_insert_join : forall (W M : Type) (Weq : EqDecision W) i1 k1 i2 k2 (m1 m2 : M) (w : W) g g',
  insert_join_m i1 k1 i2 k2 m1 m2 w g = Ok g' -> i1 <> i2 ->
  metas g' i1 = having k1 m1 (metas g i1) /\ metas g' i2 = having k2 m2 (metas g i2) /\ forall j, j <> i1 -> j <> i2 -> metas g' j = metas g j.
Proof. exact (fun W M Weq => insert_join_metas). Qed.
Print Assumptions C117_insert_join.

Theorem C117_insert_loop : forall (W M : Type) (Weq : EqDecision W) n k1 k2 (m1 m2 : M) (w : W) g g',
  insert_join_m n k1 n k2 m1 m2 w g = Ok g' ->
  metas g' n = having k2 m2 (having k1 m1 (metas g n)) /\ forall j, j <> n -> metas g' j = metas g j.
Proof. exact (fun W M Weq => insert_loop_metas). Qed.
Print Assumptions C117_insert_loop.

Theorem C117_set : forall (W M : Type) (Weq : EqDecision W) s k (m : M) (g g' : graph (W * M)),
  set_edge_meta_data s k m g = Ok g' ->
  plain g' = plain g /\ forall j, metas g' j = if decide (j = s) then <[k := m]> (metas g s) else metas g j.
Proof. exact (fun W M Weq => set_both). Qed.
Print Assumptions C117_set.

Theorem C117_mutate : forall (W M : Type) (Weq : EqDecision W) s k (f : M -> M) (g g' : graph (W * M)),
  mutate_edge_meta_data s k f g = Ok g' ->
  plain g' = plain g /\ forall j, metas g' j = if decide (j = s) then alter f k (metas g s) else metas g j.
Proof. exact (fun W M Weq => mutate_both). Qed.
Print Assumptions C117_mutate.

(** The meta data erased are those of an edge and a partner of it; if weights tell edges apart, it is the only one there may be. *)
Theorem C117_erase : forall (W M : Type) (Weq : EqDecision W) fl s k e (g : graph (W * M)),
  fl <> Directed -> graph_ok fl (plain g) -> row g s !! k = Some e ->
  exists g' q e', erase_edge_m fl s k g = Ok g' /\ graph_ok fl (plain g') /\
    row g (tgt e) !! q = Some e' /\ (tgt e, q) <> (s, k) /\ tgt e' = s /\ weight e' = weight e /\ (fl = Embedded -> q = comp e) /\ gone_metas g g' s k (tgt e) q.
Proof. exact (fun W M Weq => erase_done). Qed.
Print Assumptions C117_erase.

Theorem C117_erase_directed : forall (W M : Type) (Weq : EqDecision W) s k e (g g' : graph (W * M)),
  row g s !! k = Some e -> erase_edge_m Directed s k g = Ok g' ->
  metas g' s = without k (metas g s) /\ forall j, j <> s -> metas g' j = metas g j.
Proof. exact (fun W M Weq => erase_directed_metas). Qed.
Print Assumptions C117_erase_directed.

Theorem C117_partner : forall (W M : Type) (Weq : EqDecision W) s k e (g : graph (W * M)) t q e',
  told_apart g -> row g s !! k = Some e -> row g t !! q = Some e' -> (t, q) <> (s, k) -> weight e' = weight e ->
  forall i l e2, (i, l) <> (s, k) -> row g i !! l = Some e2 -> weight e2 = weight e -> (i, l) = (t, q).
Proof. exact (fun W M Weq => told_unique). Qed.
Print Assumptions C117_partner.

(** Without weights, erasing one of two undirected edges of the same nodes may leave one half of each: what was joined with meta data
    1 and 2, and with 3 and 4, becomes an edge with 1 and 4. *)
Theorem C117_erase_refuted : exists g1 g2 g3 : graph (unit * nat),
  join_m Undirected 0 1 1 2 tt [[]; []] = Ok g1 /\ join_m Undirected 0 1 3 4 tt g1 = Ok g2 /\
  metas g2 0 = [1; 3] /\ metas g2 1 = [2; 4] /\ erase_edge_m Undirected 0 1 g2 = Ok g3 /\ metas g3 0 = [1] /\ metas g3 1 = [4].
Proof. exact mixed_up. Qed.
Print Assumptions C117_erase_refuted.

(** With shared weights, and for embedded graphs, this is not so. *)
Example C117_example : exists g1 g2 g3 : graph (nat * nat),
  join_m Undirected 0 1 1 2 7 [[]; []] = Ok g1 /\ join_m Undirected 0 1 3 4 8 g1 = Ok g2 /\ told_apart g2 /\
  erase_edge_m Undirected 0 1 g2 = Ok g3 /\ metas g3 0 = [1] /\ metas g3 1 = [2].
Proof. exact not_mixed_up. Qed.

Example C117_embedded_example : exists g1 g2 g3 : graph (unit * nat),
  insert_join_m 0 0 1 0 1 2 tt [[]; []] = Ok g1 /\ insert_join_m 0 1 1 0 3 4 tt g1 = Ok g2 /\ metas g2 0 = [1; 3] /\ metas g2 1 = [4; 2] /\
  erase_edge_m Embedded 0 1 g2 = Ok g3 /\ metas g3 0 = [1] /\ metas g3 1 = [2].
Proof. do 3 eexists. repeat split; by vm_compute. Qed.

Example C117_loop_example : exists g1 g2 g3 : graph (unit * nat),
  insert_join_m 0 0 0 0 1 2 tt [[]] = Ok g1 /\ metas g1 0 = [2; 1] /\ insert_join_m 0 1 0 3 3 4 tt g1 = Ok g2 /\ metas g2 0 = [2; 3; 1; 4] /\
  set_edge_meta_data 0 3 9 g2 = Ok g3 /\ metas g3 0 = [2; 3; 1; 9].
Proof. do 3 eexists. repeat split; by vm_compute. Qed.
