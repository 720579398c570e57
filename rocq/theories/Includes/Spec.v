(** What is claimed of the search for include directives (C54). *)
From Coq Require Import Ascii String.
From stdpp Require Import list.
From Verif.Base Require Import Outcome.
From Verif.Text Require Import Model Spec.
From Verif.Failure Require Import Model.
From Verif.Includes Require Import Model.

Definition spaces (s : text) : Prop := Forall (fun c => is_space c = true) s.

(** An opening mark and the closing one. *)
Inductive marks : ascii -> ascii -> Prop :=
  | marks_quote : marks quote quote
  | marks_angle : marks opening closing.

Definition block_end : text := [star; slash].

(** [names cut s ns]: the text [s] has the include directives [ns] before the cutoff.  This is how a text is taken apart;
    anything may follow a line with the cutoff.  A line with the first character of the cutoff is not looked at any more. *)
Inductive names (cut : text) : text -> list text -> Prop :=
  | names_end : names cut [] []
  | names_char c s ns : c <> slash -> c <> hash -> head cut <> Some c \/ c = nl -> names cut s ns -> names cut (c :: s) ns
  | names_slash s ns : head s <> Some slash -> head s <> Some star -> names cut s ns -> names cut (slash :: s) ns
  | names_line_comment x s ns : nl ∉ x -> names cut s ns -> names cut ([slash; slash] ++ x ++ nl :: s) ns
  | names_last_line_comment x : nl ∉ x -> names cut ([slash; slash] ++ x) []
  | names_block_comment x s ns : ~ occurs block_end (x ++ [star]) -> names cut s ns ->
      names cut ([slash; star] ++ x ++ block_end ++ s) ns
  | names_last_block_comment x : ~ occurs block_end x -> names cut ([slash; star] ++ x) []
  | names_directive w d s ns : w <> include_word -> " "%char ∉ w -> nl ∉ w -> d = " "%char \/ d = nl -> names cut s ns ->
      names cut (hash :: w ++ d :: s) ns
  | names_last_directive w : " "%char ∉ w -> nl ∉ w -> names cut (hash :: w) []
  | names_include d sp o c x s ns : d = " "%char \/ d = nl -> spaces sp -> marks o c -> c ∉ x -> names cut s ns ->
      names cut (hash :: include_word ++ d :: sp ++ o :: x ++ c :: s) (x :: ns)
  | names_last_include d sp o c x : d = " "%char \/ d = nl -> spaces sp -> marks o c -> c ∉ x ->
      names cut (hash :: include_word ++ d :: sp ++ o :: x) [x]
  | names_no_mark d sp c s ns : d = " "%char \/ d = nl -> spaces sp -> is_space c = false -> c <> quote -> c <> opening ->
      names cut s ns -> names cut (hash :: include_word ++ d :: sp ++ c :: s) ns
  | names_nothing d sp : d = " "%char \/ d = nl -> spaces sp -> names cut (hash :: include_word ++ d :: sp) []
  | names_line c x s ns : head cut = Some c -> c <> slash -> c <> hash -> nl ∉ c :: x -> ~ occurs cut (c :: x) ->
      names cut s ns -> names cut ((c :: x) ++ nl :: s) ns
  | names_last_line c x : head cut = Some c -> c <> slash -> c <> hash -> nl ∉ c :: x -> ~ occurs cut (c :: x) -> names cut (c :: x) []
  | names_cut c x s : head cut = Some c -> c <> slash -> c <> hash -> nl ∉ c :: x -> occurs cut (c :: x) ->
      s = [] \/ head s = Some nl -> names cut ((c :: x) ++ s) [].

(** What is listed for a name: nothing unless it has an extension; a name without folders is taken to be in the folder of
    the including file. *)
Definition with_extension (x : text) : Prop :=
  exists p a b, x = p ++ a ++ [dot] ++ b /\ (p = [] \/ last p = Some slash) /\ slash ∉ a ++ b /\ a <> [] /\ (a ++ [dot] ++ b) <> [dot; dot].

Inductive listed (dir : text) : text -> list text -> Prop :=
  | listed_not x : ~ with_extension x -> listed dir x []
  | listed_path x : with_extension x -> slash ∈ x -> listed dir x [x]
  | listed_file x : with_extension x -> slash ∉ x -> dir <> [] -> last dir <> Some slash -> listed dir x [dir ++ [slash] ++ x]
  | listed_here x : with_extension x -> slash ∉ x -> dir = [] -> listed dir x [x]
  | listed_root x : with_extension x -> slash ∉ x -> last dir = Some slash -> listed dir x [dir ++ x].

(** *** Texts made of lines

    [code x]: neither a directive nor the start of a comment. *)
Definition code (x : text) : Prop :=
  nl ∉ x /\ hash ∉ x /\ ~ occurs [slash; slash] x /\ ~ occurs [slash; star] x.

(** [lines cut s ns]: the text [s] is made of lines of code, lines which are comments, comments of several lines,
    directives and includes, with names [ns]; a line with the cutoff ends it. *)
Inductive lines (cut : text) : text -> list text -> Prop :=
  | lines_end : lines cut [] []
  | lines_code x s ns : code x -> ~ occurs cut x -> lines cut s ns -> lines cut (x ++ nl :: s) ns
  | lines_comment sp x s ns : Forall (eq " "%char) sp -> nl ∉ x -> lines cut s ns ->
      lines cut (sp ++ [slash; slash] ++ x ++ nl :: s) ns
  | lines_block x y s ns : ~ occurs block_end (x ++ [star]) -> code y -> ~ occurs cut y -> lines cut s ns ->
      lines cut ([slash; star] ++ x ++ block_end ++ y ++ nl :: s) ns
  | lines_directive w s ns : w <> include_word -> " "%char ∉ w -> nl ∉ w -> lines cut s ns -> lines cut (hash :: w ++ nl :: s) ns
  | lines_directive_more w x s ns : w <> include_word -> " "%char ∉ w -> nl ∉ w -> code x -> ~ occurs cut x -> lines cut s ns ->
      lines cut (hash :: w ++ " "%char :: x ++ nl :: s) ns
  | lines_include o c x y s ns : marks o c -> c ∉ x -> code y -> ~ occurs cut y -> lines cut s ns ->
      lines cut (hash :: include_word ++ " "%char :: o :: x ++ c :: y ++ nl :: s) (x :: ns)
  | lines_cut x s : code x -> occurs cut x -> s = [] \/ head s = Some nl -> lines cut (x ++ s) [].

(** *** What C++ calls an include directive ([cpp.include]): a line with this text, blanks being spaces and tabs. *)
Definition blanks (s : text) : Prop := Forall (fun c => c = " "%char \/ c = ascii_of_nat 9) s.

Inductive include_directive : text -> text -> Prop :=
  | an_include b1 b2 b3 o c x y : blanks b1 -> blanks b2 -> blanks b3 -> marks o c -> c ∉ x -> nl ∉ x -> blanks y ->
      include_directive (b1 ++ [hash] ++ b2 ++ include_word ++ b3 ++ [o] ++ x ++ [c] ++ y) x.
