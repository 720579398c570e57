(** Vocabulary for the properties of [soft_update]. *)
From stdpp Require Import list.
From Verif.Base Require Import Outcome Compare.
From Verif.Text Require Import Model.
From Verif.SoftUpdate Require Import Model.

(** No name is empty, or occurs twice in a folder. *)
Inductive well_formed (d : list (text * node)) : Prop :=
| well_formed_intro : NoDup (map fst d) -> [] ∉ map fst d -> (forall n x, entry d n = Some (Dir x) -> well_formed x) -> well_formed d.

Fixpoint depth (e : node) : nat :=
  match e with
  | File _ => 0
  | Dir d => S (fold_right (fun x m => Nat.max (depth (snd x)) m) 0 d)
  end.

Section spec.
  Variable regex_remove : text -> text -> text.

  (** Two files have equal contents, perhaps only after removing what the expressions of the supplementary file match. *)
  Definition same_contents (t : list (text * node)) (n a b : text) : Prop :=
    a = b \/ (extension n <> seqpat /\
      fold_left (fun s r => regex_remove r s) (expressions (entry t (stem n ++ seqpat))) a =
      fold_left (fun s r => regex_remove r s) (expressions (entry t (stem n ++ seqpat))) b).

  (** The folder [t] has exactly the files and folders of [f]. *)
  Inductive mirrors : list (text * node) -> list (text * node) -> Prop :=
  | mirrors_intro f t : (forall n, mirrors_at t n (entry f n) (entry t n)) -> mirrors f t
  with mirrors_at : list (text * node) -> text -> option node -> option node -> Prop :=
  | mirrors_none t n : mirrors_at t n None None
  | mirrors_file t n a b : same_contents t n a b -> mirrors_at t n (Some (File a)) (Some (File b))
  | mirrors_dir t n x y : mirrors x y -> mirrors_at t n (Some (Dir x)) (Some (Dir y)).
End spec.

Definition special (n : text) : Prop := n = keep \/ extension n = seqpat.

(** The folder [f'] is [f], but for special files. *)
Inductive kept : list (text * node) -> list (text * node) -> Prop :=
| kept_intro f f' : (forall n, kept_at n (entry f n) (entry f' n)) -> kept f f'
with kept_at : text -> option node -> option node -> Prop :=
| kept_none n : kept_at n None None
| kept_file n a : kept_at n (Some (File a)) (Some (File a))
| kept_special n e a : special n -> (forall x, e <> Some (Dir x)) -> kept_at n e (Some (File a))
| kept_dir n x y : kept x y -> kept_at n (Some (Dir x)) (Some (Dir y)).

(** The special files of [t] are in [t']: the files which keep folders, and those of expressions for files in [f]. *)
Inductive specials_survive (f t t' : list (text * node)) : Prop :=
| specials_survive_intro :
    (forall c, entry t keep = Some (File c) -> entry t' keep = Some (File c)) ->
    (forall n c w, entry t n = Some (File c) -> extension n = seqpat -> entry f w <> None -> stem w = stem n -> extension w <> seqpat ->
       entry t' n = Some (File c)) ->
    (forall n x y, entry f n = Some (Dir x) -> entry t n = Some (Dir y) ->
       exists y', entry t' n = Some (Dir y') /\ specials_survive x y y') ->
    specials_survive f t t'.

(** The greatest entry of [f], if there is one, is also in [t], or [t] has no greater one. *)
Definition ends_well (f t : list (text * node)) : Prop :=
  forall n e, entry f n = Some e -> (forall m, entry f m <> None -> text_compare n m <> Lt) ->
    (exists e', entry t n = Some e' /\ kind_of e' = kind_of e) \/ (forall m, entry t m <> None -> text_compare n m <> Lt).

(** Pairs of folders which can be updated. *)
Inductive safe (f t : list (text * node)) : Prop :=
| safe_intro f1 : copy_special f t = Ok f1 -> ends_well f1 t ->
    (forall n a y, entry f1 n = Some (File a) -> entry t n <> Some (Dir y)) ->
    (forall n x y, entry f1 n = Some (Dir x) -> entry t n = Some (Dir y) -> safe x y) ->
    safe f t.
