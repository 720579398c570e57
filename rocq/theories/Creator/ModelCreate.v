(** Model of the creation of the files of a nascent test: Source/sequoia/TestFramework/TestCreator.cpp L90-98, L276-365.

    Files are given by their paths in the folder of tests; so is the folder of the test (C115).  Each main file has a CMakeLists of
    its own.  [transform] is what becomes of the text of a template, L296-297 ([file_text] in Creator/Model.v). *)
From Coq Require Import Ascii String.
From stdpp Require Import list.
From Verif.Base Require Import Outcome.
From Verif.Text Require Import Model.
From Verif.Prune Require Model.
From Verif.Edit Require Import Model ModelSuite.
From Verif.Select Require Import Model.
From Verif.Creator Require Import ModelHeader.
Local Open Scope res_scope.
Local Notation "⌜ s ⌝" := (list_ascii_of_string s%string).

(** The files of tests; the text of TestIncludes.hpp; the texts of the main files and of their CMakeLists *)
Record project := Project { files : path -> option text; includes : text; mains : list (text * text) }.
Definition write (p : project) (out : path) (t : text) : project :=
  Project (fun q => if decide (q = out) then Some t else files p q) (includes p) (mains p).
Definition with_includes (p : project) (t : text) : project := Project (files p) t (mains p).
Definition with_mains (p : project) (l : list (text * text)) : project := Project (files p) (includes p) l.

(** What is said about a file, L286, L325 *)
Inductive message := Made (out : path) | Exists_ (out : path).

(** [Stopped]: an exception, which leaves [p] *)
Inductive creation := Complete (p : project) (ms : list message) | Stopped (p : project) | Undefined_.

(** L90-98 *)
Inductive amended := AllOf (l : list (text * text)) | PartOf (l : list (text * text)) | NoneOf.
Fixpoint amend (f : text * text -> res (text * text)) (l : list (text * text)) : amended :=
  match l with
  | [] => AllOf []
  | x :: l =>
      match f x with
      | Ok y =>
          match amend f l with
          | AllOf r => AllOf (y :: r)
          | PartOf r => PartOf (y :: r)
          | NoneOf => NoneOf
          end
      | Throw _ => PartOf (x :: l)
      | _ => NoneOf
      end
  end.
Definition amend_project (p : project) (f : text * text -> res (text * text)) (ms : list message) : creation :=
  match amend f (mains p) with
  | AllOf l => Complete (with_mains p l) ms
  | PartOf l => Stopped (with_mains p l)
  | NoneOf => Undefined_
  end.

Section creation.
  (** The folder of tests; the folder of the test in it; the name of the test; the templates by their endings *)
  Variables (tests host : path) (camel : text) (templates : text -> option text) (transform : text -> res text).

  (** L280 *)
  Definition output_file (ending : text) : path := host ++ [camel ++ ending].

  (** L306-323 *)
  Definition register (p : project) (out : path) : creation :=
    if decide (extension_of out = ⌜".hpp"⌝) then
      match find_first ⌜"Utilities.hpp"⌝ (generic (tests ++ out)) with
      | Some _ => Complete p [Made out]
      | None =>
          match add_include (includes p) (Prune.Model.generic_string out) with
          | Ok t => Complete (with_includes p t) [Made out]
          | Throw _ => Stopped p
          | _ => Undefined_
          end
      end
    else if decide (extension_of out = ⌜".cpp"⌝) then
      amend_project p (fun m => let? c := add_to_cmake (snd m) ⌜"target_sources("⌝ ⌜")
"⌝ (⌜"${TestDir}/"⌝ ++ Prune.Model.generic_string out) in Ok (fst m, c)) [Made out]
    else Complete p [Made out].

  (** L276-326 *)
  Definition create_file (p : project) (ending : text) : creation :=
    let out := output_file ending in
    match files p out with
    | Some _ => Complete p [Exists_ out]                                              (* L283-287 *)
    | None =>
        match templates ending with
        | None => Stopped p                                                           (* L291 *)
        | Some t =>
            match t with
            | [] => register (write p out []) out                                     (* L294 *)
            | _ =>
                match transform t with
                | Ok u => register (write p out u) out
                | Throw _ => Stopped (write p out t)
                | _ => Undefined_
                end
            end
        end
    end.

  (** L351-354 *)
  Fixpoint create_files (p : project) (endings : list text) (ms : list message) : creation :=
    match endings with
    | [] => Complete p ms
    | e :: endings =>
        match create_file p e with
        | Complete p' m => create_files p' endings (ms ++ m)
        | r => r
        end
    end.

  (** L349-365 *)
  Definition create (p : project) (endings : list text) (suite indent : text) (constructors : list text) : creation :=
    match create_files p endings [] with
    | Complete p' ms => amend_project p' (fun m => let? t := add_to_suite (fst m) suite indent constructors in Ok (t, snd m)) ms
    | r => r
    end.
End creation.
