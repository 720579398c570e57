(** A part of the language of the POSIX shell: words without special characters, redirections of output, and
    lists of commands joined by "&&".  A text outside of this part has no reading. *)
From Coq Require Import Ascii String.
From stdpp Require Import list.
From Verif.Text Require Import Model.
Local Notation "⌜ s ⌝" := (list_ascii_of_string s%string).

Definition blank : char := " ".
Definition amp : char := "&".
Definition great : char := ">".

(** The characters which have, or may have, a special meaning (POSIX.1-2017, Shell Command Language, 2.2). *)
Definition specials : text := ["009"; "010"]%char ++ ⌜"|;<()$`\'*?[#~=%"⌝ ++ [""""%char].
Definition plain_char (c : char) : Prop := c <> blank /\ c <> amp /\ c <> great /\ c ∉ specials.
Definition plain (w : text) : Prop := w <> [] /\ Forall plain_char w.

Definition a_number (w : text) : bool :=
  negb (bool_decide (w = [])) && forallb (fun c => bool_decide (c ∈ ⌜"0123456789"⌝)) w.

(** Tokens (2.3); a number directly in front of an operator for redirection says what is redirected (2.7) *)
Inductive token := Word (w : text) | Number (w : text) | And_if | Great | Dgreat | Greatand.

Definition flush (acc : text) (ts : list token) : list token := match acc with [] => ts | _ => Word acc :: ts end.
Definition flush_number (acc : text) (ts : list token) : list token :=
  if a_number acc then Number acc :: ts else flush acc ts.

Fixpoint tokens (acc l : text) : option (list token) :=
  match l with
  | [] => Some (flush acc [])
  | c :: l' =>
      if decide (c = blank) then flush acc <$> tokens [] l'
      else if decide (c = amp) then
        match l' with
        | d :: l'' => if decide (d = amp) then (fun ts => flush acc (And_if :: ts)) <$> tokens [] l'' else None
        | [] => None
        end
      else if decide (c = great) then
        match l' with
        | d :: l'' =>
            if decide (d = great) then (fun ts => flush_number acc (Dgreat :: ts)) <$> tokens [] l''
            else if decide (d = amp) then (fun ts => flush_number acc (Greatand :: ts)) <$> tokens [] l''
            else (fun ts => flush_number acc (Great :: ts)) <$> tokens [] l'
        | [] => Some (flush_number acc [Great])
        end
      else if decide (c ∈ specials) then None
      else tokens (acc ++ [c]) l'
  end.

(** Redirections: descriptor (as written) and file, or descriptor which it becomes a copy of *)
Inductive redirect := Truncate (fd : text) (file : text) | Append (fd : text) (file : text) | Copy (fd fd' : text).
Record command := Command { words : list text; redirects : list redirect }.

Definition add_word (c : command) (w : text) : command := Command (words c ++ [w]) (redirects c).
Definition add_redirect (c : command) (r : redirect) : command := Command (words c) (redirects c ++ [r]).
Definition stdout : text := ⌜"1"⌝.
Definition stderr : text := ⌜"2"⌝.

(** A list of commands; each has at least one word or redirection *)
Fixpoint commands (cur : command) (ts : list token) : option (list command) :=
  match ts with
  | [] => if decide (words cur = [] /\ redirects cur = []) then None else Some [cur]
  | Word w :: ts' => commands (add_word cur w) ts'
  | And_if :: ts' => if decide (words cur = [] /\ redirects cur = []) then None else cons cur <$> commands (Command [] []) ts'
  | Great :: Word f :: ts' => commands (add_redirect cur (Truncate stdout f)) ts'
  | Dgreat :: Word f :: ts' => commands (add_redirect cur (Append stdout f)) ts'
  | Greatand :: Word f :: ts' => commands (add_redirect cur (Copy stdout f)) ts'
  | Number n :: Great :: Word f :: ts' => commands (add_redirect cur (Truncate n f)) ts'
  | Number n :: Dgreat :: Word f :: ts' => commands (add_redirect cur (Append n f)) ts'
  | Number n :: Greatand :: Word f :: ts' => commands (add_redirect cur (Copy n f)) ts'
  | _ => None
  end.

(** What a text means; the empty text is the empty list. *)
Definition reading (l : text) : option (list command) :=
  match l with
  | [] => Some []
  | _ => ts ← tokens [] l; commands (Command [] []) ts
  end.

(** Running a list of commands all of which succeed, as far as one file is concerned.  [said] is what the
    commands write, piece by piece, each to a descriptor. *)
Inductive target := File (f : text) (app : bool) | Inherited (fd : text).

Definition retarget (m : text -> target) (r : redirect) : text -> target :=
  fun fd => match r with
            | Truncate fd' f => if decide (fd = fd') then File f false else m fd
            | Append fd' f => if decide (fd = fd') then File f true else m fd
            | Copy fd' fd'' => if decide (fd = fd') then m fd'' else m fd
            end.
Definition targets (rs : list redirect) : text -> target := fold_left retarget rs Inherited.

(** A file opened for writing from the beginning loses its content. *)
Definition emptied (f : text) (rs : list redirect) : bool :=
  existsb (fun r => match r with Truncate _ f' => bool_decide (f' = f) | _ => false end) rs.

Definition goes_to (f : text) (m : text -> target) (piece : text * text) : bool :=
  match m piece.1 with File f' _ => bool_decide (f' = f) | Inherited _ => false end.

(** The content of file [f] after the command has written [said]. *)
Definition after (f : text) (c : command) (said : list (text * text)) (content : text) : text :=
  (if emptied f (redirects c) then [] else content) ++
  concat (map snd (List.filter (goes_to f (targets (redirects c))) said)).

Fixpoint after_all (f : text) (cs : list command) (said : list (list (text * text))) (content : text) : text :=
  match cs, said with
  | c :: cs', s :: said' => after_all f cs' said' (after f c s content)
  | _, _ => content
  end.

(** A command with both of its outputs sent to a file. *)
Definition redirected (c : command) (output : text) (app : bool) : command :=
  Command (words c) (redirects c ++ [if app then Append stdout output else Truncate stdout output; Copy stderr stdout]).

(** Everything is written to one of the two outputs. *)
Definition usual (said : list (text * text)) : Prop := Forall (fun p => p.1 = stdout \/ p.1 = stderr) said.
