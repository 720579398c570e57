(** What is expected of a comparison of paths. *)
From Coq Require Import Ascii String.
From stdpp Require Import list.
From Verif.Base Require Import Outcome Compare.
From Verif.Text Require Import Model.
From Verif.SoftUpdate Require Import Model.
From Verif.PathCheck Require Import Model.

(** Entries with these names are not looked at. *)
Definition excluded (n : text) : Prop :=
  n = list_ascii_of_string ".DS_Store" \/ n = list_ascii_of_string ".keep" \/ extension n = seqpat.

Definition visible (d : list (text * node)) (n : text) : Prop := entry d n <> None /\ ~ excluded n.

Section spec.
  Variable regex_remove : text -> text -> text.

  (** The contents without what the expressions in a file beside the prediction match *)
  Definition reduced (t : list (text * node)) (n n' s : text) : text :=
    if decide (extension n = seqpat) then s
    else fold_left (fun s r => regex_remove r s) (expressions (entry t (stem n' ++ seqpat))) s.

  (** The same files, but for what may differ in them, and the same folders *)
  Inductive alike : list (text * node) -> text -> text -> option node -> option node -> Prop :=
  | alike_none t n n' : alike t n n' None None
  | alike_file t n n' a b : reduced t n n' a = reduced t n n' b -> alike t n n' (Some (File a)) (Some (File b))
  | alike_dir t n n' d d' : (forall m, ~ excluded m -> alike d' m m (entry d m) (entry d' m)) -> alike t n n' (Some (Dir d)) (Some (Dir d')).

  (** The checks of two paths with the same kind of thing below get to the same kind of thing at a place in them, as all folders
      on the way have entries with the same names. *)
  Inductive compared (strong : bool) : list (text * node) -> text -> text -> node -> node -> list text ->
      list (text * node) -> text -> text -> node -> node -> Prop :=
  | compared_here t n n' e e' : compared strong t n n' e e' [] t n n' e e'
  | compared_below t n n' d d' m x y q u k k' z z' :
      (strong = true -> n = n') -> (forall m, visible d m <-> visible d' m) ->
      ~ excluded m -> entry d m = Some x -> entry d' m = Some y ->
      compared strong d' m m x y q u k k' z z' ->
      compared strong t n n' (Dir d) (Dir d') (m :: q) u k k' z z'.

  (** The first name, in alphabetical order, of an entry from [m] on *)
  Definition first_from (d : list (text * node)) (m : text) (o : option text) : Prop :=
    match o with
    | Some w => visible d w /\ text_compare m w <> Gt /\ forall v, visible d v -> text_compare m v <> Gt -> text_compare w v <> Gt
    | None => forall v, visible d v -> text_compare m v = Gt
    end.

  (** The differences of two things, without looking into folders *)
  Inductive differ (strong : bool) : list (text * node) -> text -> text -> node -> node -> issue -> Prop :=
  | differ_type t n n' e e' : kind_of e <> kind_of e' -> differ strong t n n' e e' (WrongType (Some (kind_of e)) (Some (kind_of e')))
  | differ_name t n n' e e' : kind_of e = kind_of e' -> strong = true -> n <> n' -> differ strong t n n' e e' (WrongName n n')
  | differ_number t n n' d d' l l' : (strong = true -> n = n') ->
      NoDup l -> NoDup l' -> (forall m, m ∈ l <-> visible d m) -> (forall m, m ∈ l' <-> visible d' m) -> List.length l <> List.length l' ->
      differ strong t n n' (Dir d) (Dir d') (WrongNumber (List.length l) (List.length l'))
  | differ_entry t n n' d d' m o o' : (strong = true -> n = n') ->
      (visible d m <-> ~ visible d' m) -> (forall v, text_compare v m = Lt -> visible d v <-> visible d' v) ->
      first_from d m o -> first_from d' m o' ->
      differ strong t n n' (Dir d) (Dir d') (WrongEntry o o')
  | differ_contents t n n' a b r : (strong = true -> n = n') ->
      compare_texts (reduced t n n' a) (reduced t n n' b) = Ok (Some r) ->
      differ strong t n n' (File a) (File b) (WrongContents r).
End spec.
