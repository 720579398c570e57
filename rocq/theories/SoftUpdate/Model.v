(** Model of the update of predictive materials: [soft_update]
    (Source/sequoia/TestFramework/MaterialsUpdater.cpp, FileEditors.cpp). *)
From Coq Require Import Ascii NArith.
From stdpp Require Import list.
From Verif.Base Require Import Outcome Compare.
From Verif.Text Require Import Model.
Local Open Scope res_scope.

(** A file with its contents, or a folder with its entries in the order of iteration.  Links and other kinds of entry,
    and files which cannot be opened, are not modelled. *)
Inductive node := File (contents : text) | Dir (entries : list (text * node)).
Notation dir := (list (text * node)) (only parsing).

Fixpoint entry (d : dir) (n : text) : option node :=
  match d with
  | [] => None
  | (m, e) :: d' => if decide (m = n) then Some e else entry d' n
  end.
Fixpoint put (d : dir) (n : text) (e : node) : dir :=
  match d with
  | [] => [(n, e)]
  | (m, e') :: d' => if decide (m = n) then (n, e) :: d' else (m, e') :: put d' n e
  end.
Definition remove (d : dir) (n : text) : dir := List.filter (fun x => if decide (fst x = n) then false else true) d.

(** [fs::file_type], of which [regular] is smaller than [directory] *)
Inductive kind := Regular | Directory.
Definition kind_of (e : node) : kind := match e with File _ => Regular | Dir _ => Directory end.
Definition kind_compare (k l : kind) : comparison :=
  match k, l with
  | Regular, Directory => Lt
  | Directory, Regular => Gt
  | _, _ => Eq
  end.

(** [path::stem] and [path::extension] of a file name *)
Definition dot : ascii := "."%char.
Fixpoint last_dot (s : text) : option (text * text) :=
  match s with
  | [] => None
  | c :: s' => match last_dot s' with
               | Some (a, b) => Some (c :: a, b)
               | None => if decide (c = dot) then Some ([], s) else None
               end
  end.
Definition stem (n : text) : text :=
  match last_dot n with
  | Some (c :: a, _) => c :: a
  | _ => n
  end.
Definition extension (n : text) : text :=
  match last_dot n with
  | Some (_ :: _, b) => b
  | _ => []
  end.
(** ProjectPaths.hpp L22 *)
Definition seqpat : text := ["."; "s"; "e"; "q"; "p"; "a"; "t"]%char.
Definition keep : text := ["."; "k"; "e"; "e"; "p"]%char.
(** [path::replace_extension(seqpat)] *)
Definition supplement (n : text) : text := stem n ++ seqpat.

(** ** Special files, MaterialsUpdater.cpp L29-53 *)

(** [fs::copy] of a regular file into a folder, overwriting what is there, which may not be a folder *)
Definition copy_over (f : dir) (n : text) (c : text) : res dir :=
  match entry f n with
  | Some (Dir _) => Throw RuntimeError
  | _ => Ok (put f n (File c))
  end.
Definition has_stem (s : text) (x : text * node) : bool :=
  if decide (stem (fst x) = s) then if decide (extension (fst x) = seqpat) then false else true else false.
Fixpoint copy_special (f : dir) (t : dir) : res dir :=
  match t with
  | [] => Ok f
  | (n, File c) :: t' =>
      if decide (extension n = seqpat) then
        if existsb (has_stem (stem n)) f then let? f' := copy_over f n c in copy_special f' t'
        else copy_special f t'
      else if decide (n = keep) then let? f' := copy_over f n c in copy_special f' t'
      else copy_special f t'
  | (_, Dir _) :: t' => copy_special f t'
  end.

(** ** Listings, MaterialsUpdater.cpp L55-85 *)

(** An entry of a listing: the relative path, which is a name, and the kind.  The program asks for the kind when it compares
    entries, which it does before changing the files they stand for. *)
Definition entry_compare : text * kind -> text * kind -> comparison := pair_compare text_compare kind_compare.
Definition listing (d : dir) : list (text * kind) := sort_by entry_compare (map (fun x => (fst x, kind_of (snd x))) d).

Section update.
  (** [std::regex_replace] by the empty text; expressions are taken to be valid. *)
  Variable regex_remove : text -> text -> text.
  (** The update of a folder within the folder *)
  Variable subfolder : dir -> dir -> res (dir * dir).

  (** FileEditors.cpp L217-258: the expressions are the lines of the file, up to an empty one.  What is read from a folder
      is taken to be nothing. *)
  Fixpoint split_lines (s : text) : list text :=
    match s with
    | [] => [[]]
    | c :: s' => if decide (c = nl) then [] :: split_lines s'
                 else match split_lines s' with
                      | w :: ws => (c :: w) :: ws
                      | [] => [[c]]
                      end
    end.
  Fixpoint until_empty (l : list text) : list text :=
    match l with
    | [] => []
    | w :: l' => match w with [] => [] | _ => w :: until_empty l' end
    end.
  Definition expressions (e : option node) : list text :=
    match e with
    | Some (File s) => until_empty (split_lines s)
    | _ => []
    end.
  Definition reduce (rs : list text) (s : text) : text := fold_left (fun s r => regex_remove r s) rs s.
  Definition rules (t : dir) (n : text) : list text :=
    if decide (extension n = seqpat) then [] else expressions (entry t (supplement n)).

  (** MaterialsUpdater.cpp L101-126: entries with the same name and kind *)
  Definition update_pair (x : text * kind) (f t : dir) : res (dir * dir) :=
    let n := fst x in
    match entry f n, entry t n with
    | Some (File a), Some (File b) =>
        if decide (reduce (rules t n) a = reduce (rules t n) b) then Ok (f, t) else Ok (f, put t n (File a))
    | Some (Dir x), Some (Dir y) =>
        let? r := subfolder x y in
        Ok (put f n (Dir (fst r)), put t n (Dir (snd r)))
    | _, _ => Throw LogicError
    end.
  Fixpoint update_pairs (l : list (text * kind)) (f t : dir) : res (dir * dir) :=
    match l with
    | [] => Ok (f, t)
    | x :: l' => let? r := update_pair x f t in update_pairs l' (fst r) (snd r)
    end.

  (** [std::ranges::mismatch] *)
  Fixpoint mismatch (lf lt : list (text * kind)) : list (text * kind) * (list (text * kind) * list (text * kind)) :=
    match lf, lt with
    | x :: lf', y :: lt' =>
        match entry_compare x y with
        | Eq => let r := mismatch lf' lt' in (x :: fst r, snd r)
        | _ => ([], (lf, lt))
        end
    | _, _ => ([], (lf, lt))
    end.

  (** MaterialsUpdater.cpp L130-142: [fs::copy] refuses to overwrite *)
  Definition copy_entry (x : text * kind) (f t : dir) : res dir :=
    match entry t (fst x), entry f (fst x) with
    | None, Some e => Ok (put t (fst x) e)
    | _, _ => Throw RuntimeError
    end.
  Fixpoint copy_loop (lf lt : list (text * kind)) (f t : dir) : res (list (text * kind) * dir) :=
    match lf with
    | [] => Ok ([], t)
    | x :: lf' =>
        if match lt with [] => true | y :: _ => match entry_compare x y with Lt => true | _ => false end end
        then let? t' := copy_entry x f t in copy_loop lf' lt f t'
        else Ok (lf, t)
    end.

  (** MaterialsUpdater.cpp L144-150: [*iters.in1] is read without checking that there is such an entry *)
  Fixpoint remove_loop (lf lt : list (text * kind)) (t : dir) : res (list (text * kind) * dir) :=
    match lt with
    | [] => Ok ([], t)
    | y :: lt' =>
        match lf with
        | [] => UB
        | x :: _ => match entry_compare y x with Lt => remove_loop lf lt' (remove t (fst y)) | _ => Ok (lt, t) end
        end
    end.

  (** MaterialsUpdater.cpp L87-162.  Fuel: each call uses an entry. *)
  Fixpoint update_entries (fuel : nat) (lf lt : list (text * kind)) (f t : dir) : res (dir * dir) :=
    match fuel with
    | 0 => NoFuel
    | S fuel =>
        let (common, rest) := mismatch lf lt in
        let? r := update_pairs common f t in
        let f := fst r in
        let t := snd r in
        match fst rest, snd rest with
        | [], lt' => Ok (f, fold_left (fun t y => remove t (fst y)) lt' t)
        | lf', lt' =>
            let? c := copy_loop lf' lt' f t in
            match lt' with
            | [] => Ok (f, snd c)
            | _ =>
                let? d := remove_loop (fst c) lt' (snd c) in
                update_entries fuel (fst c) (fst d) f (snd d)
            end
        end
    end.
End update.

(** MaterialsUpdater.cpp L165-177, for folders which exist.  The result is the two folders afterwards.  Fuel: the depth of
    the folders. *)
Fixpoint soft_update (regex_remove : text -> text -> text) (fuel : nat) (f t : dir) : res (dir * dir) :=
  match fuel with
  | 0 => NoFuel
  | S fuel =>
      let? f1 := copy_special f t in
      update_entries regex_remove (soft_update regex_remove fuel) (S (length f1 + length t)) (listing f1) (listing t) f1 t
  end.
