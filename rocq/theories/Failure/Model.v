(** Model of the output of failures, of reading it, and of the instability analysis
    (Source/sequoia/TestFramework/FailureInfo.{hpp,cpp}). *)
From Coq Require Import Ascii NArith Decimal DecimalN.
From stdpp Require Import list.
From Verif.Base Require Import Outcome Compare.
From Verif.Text Require Import Model.
Local Open Scope res_scope.

(** FailureInfo.hpp L20-32: a [failure_info], and a [failure_output].  The index is a [size_t]; the theorems
    which need it assume it below 2^64. *)
Notation info := (N * text)%type (only parsing).
Notation output := (list (N * text)) (only parsing).

(** FailureInfo.hpp L26: the defaulted [<=>]; on [failure_output] that of [std::vector].  Characters are
    compared as unsigned ones, as by [std::char_traits<char>]. *)
Definition info_compare : N * text -> N * text -> comparison := pair_compare N.compare text_compare.
Definition output_compare : list (N * text) -> list (N * text) -> comparison := list_compare info_compare.

(** ** Writing *)

(** [std::ostream << size_t]: decimal digits (the "C" locale, no grouping) *)
Fixpoint digits (d : Decimal.uint) : text :=
  match d with
  | Nil => []
  | D0 d => "0"%char :: digits d
  | D1 d => "1"%char :: digits d
  | D2 d => "2"%char :: digits d
  | D3 d => "3"%char :: digits d
  | D4 d => "4"%char :: digits d
  | D5 d => "5"%char :: digits d
  | D6 d => "6"%char :: digits d
  | D7 d => "7"%char :: digits d
  | D8 d => "8"%char :: digits d
  | D9 d => "9"%char :: digits d
  end.
Definition decimal (n : N) : text := digits (N.to_uint n).

Definition check_word : text := ["$"; "C"; "h"; "e"; "c"; "k"; ":"]%char.
Definition dollar : text := ["$"]%char.

(** FailureInfo.cpp L198-204 *)
Definition write_info (i : N * text) : text :=
  check_word ++ [" "%char] ++ decimal (fst i) ++ [nl] ++ snd i ++ [nl] ++ dollar ++ [nl].

(** FailureInfo.cpp L211-219 *)
Definition write_output (o : list (N * text)) : text := concat (map (fun i => write_info i ++ [nl]) o).

(** ** Reading

    A stream is modelled by the characters not yet read.  The flags need not be kept: in the code below a
    stream at the end of its characters either has [eofbit] set, or sets it, and then [failbit], at the next
    [peek] and [peek] or at the next [getline]; in each case the outcome is that of the empty text. *)

(** [std::isspace] in the "C" locale *)
Definition is_space (c : ascii) : bool :=
  (9 <=? N_of_ascii c)%N && (N_of_ascii c <=? 13)%N || (N_of_ascii c =? 32)%N.

(** FailureInfo.cpp L133; also the white space skipped by [operator>>] *)
Fixpoint skip_space (s : text) : text :=
  match s with
  | c :: s' => if is_space c then skip_space s' else s
  | [] => []
  end.

(** [s >> str]: up to the next white space *)
Fixpoint take_word (s : text) : text * text :=
  match s with
  | [] => ([], [])
  | c :: s' => if is_space c then ([], s) else let (w, r) := take_word s' in (c :: w, r)
  end.

Definition digit (c : ascii) : option (Decimal.uint -> Decimal.uint) :=
  match c with
  | "0"%char => Some D0 | "1"%char => Some D1 | "2"%char => Some D2 | "3"%char => Some D3 | "4"%char => Some D4
  | "5"%char => Some D5 | "6"%char => Some D6 | "7"%char => Some D7 | "8"%char => Some D8 | "9"%char => Some D9
  | _ => None
  end.

Fixpoint take_digits (s : text) : Decimal.uint * text :=
  match s with
  | [] => (Nil, [])
  | c :: s' => match digit c with
               | Some f => let (d, r) := take_digits s' in (f d, r)
               | None => (Nil, s)
               end
  end.

(** [s >> newInfo.check_index]: the digits after the white space; no digits, or a value which does not fit,
    set [failbit].  (A sign would also be accepted; it is never written.) *)
Definition take_index (s : text) : option (N * text) :=
  let (d, r) := take_digits (skip_space s) in
  match d with
  | Nil => None
  | _ => if (N.of_uint d <? 2 ^ 64)%N then Some (N.of_uint d, r) else None
  end.

(** [std::getline], and [s.ignore(max, '\n')]: the characters before the next line break, and those after it *)
Fixpoint take_line (s : text) : text * text :=
  match s with
  | [] => ([], [])
  | c :: s' => if decide (c = nl) then ([], s') else let (w, r) := take_line s' in (c :: w, r)
  end.

(** FailureInfo.cpp L158-161: [mess.pop_back()] if it is a line break *)
Definition pop_break (m : text) : text :=
  match last m with
  | Some c => if decide (c = nl) then take (length m - 1) m else m
  | None => m
  end.

(** FailureInfo.cpp L151-171, the message; without "$" the exception of L173-176 *)
Fixpoint read_message (fuel : nat) (s : text) (ind : text) (acc : text) : res (text * text) :=
  match fuel with
  | 0 => NoFuel
  | S fuel =>
      match s with
      | [] => Throw RuntimeError
      | _ =>
          let (line, rest) := take_line s in
          if decide (line = dollar) then Ok (pop_break acc, rest)
          else let? t := indent (S (length line)) line ind in
               read_message fuel rest ind (acc ++ t ++ [nl])
      end
  end.

(** FailureInfo.cpp L131-182; [None]: the stream has failed, nothing has been read *)
Definition read_info (s : text) (ind : text) : res (option (N * text * text)) :=
  match skip_space s with
  | [] => Ok None
  | s1 =>
      let (w, s2) := take_word s1 in
      if decide (w = check_word) then
        match take_index s2 with
        | None => Throw RuntimeError
        | Some (ix, s3) =>
            let s4 := snd (take_line s3) in
            let? (m, s5) := read_message (S (length s4)) s4 ind [] in
            Ok (Some ((ix, m), s5))
        end
      else Throw RuntimeError
  end.

(** FailureInfo.cpp L184-195 *)
Fixpoint read_output_loop (fuel : nat) (s : text) (ind : text) (acc : list (N * text)) : res (list (N * text)) :=
  match fuel with
  | 0 => NoFuel
  | S fuel =>
      let? r := read_info s ind in
      match r with
      | None => Ok acc
      | Some (i, s') => read_output_loop fuel s' ind (acc ++ [i])
      end
  end.
Definition read_output (s : text) (ind : text) : res (list (N * text)) := read_output_loop (S (length s)) s ind [].

(** ** The instability analysis *)

(** [std::ranges::mismatch]: what is left of each sequence *)
Fixpoint mismatch (l1 l2 : list (N * text)) : list (N * text) * list (N * text) :=
  match l1, l2 with
  | x :: l1', y :: l2' => if decide (x = y) then mismatch l1' l2' else (l1, l2)
  | _, _ => (l1, l2)
  end.

Definition txt_no_failures : text :=
  ["-";"-";"N";"o";" ";"f";"a";"i";"l";"u";"r";"e";"s";"-";"-"]%char ++ [nl; nl] ++ ["v";"s";"."]%char ++ [nl; nl].
Definition txt_vs : text := ["v";"s";"."]%char ++ [nl; nl].

(** FailureInfo.cpp L54-93: the messages for the step from [current] to [first] *)
Definition step_messages (current first : list (N * text)) (at_initial : bool) (messages : text) : res text :=
  match mismatch current first with
  | (_, []) => Throw LogicError
  | ([], j :: _) =>
      match current with
      | [] => Ok (messages ++ txt_no_failures ++ snd j)
      | _ =>
          let common := concat (map (fun i => snd i ++ [nl]) current) in
          let messages1 := messages ++ (match messages with [] => common | _ => [nl] end) in
          Ok (messages1 ++ txt_vs ++ common ++ snd j)
      end
  | (i :: _, j :: _) =>
      let messages1 := if at_initial then messages ++ snd i else messages in
      Ok (messages1 ++ [nl] ++ txt_vs ++ snd j)
  end.

(** FailureInfo.cpp L49-100, the loop.  [current] is the output at the iterator of that name, [run] the distance
    from there to [first], [at_initial] says that it is the initial one. *)
Fixpoint analyse_loop (current : list (N * text)) (run : nat) (at_initial : bool) (freqs : list nat) (messages : text)
    (rest : list (list (N * text))) : res (option (list nat * text)) :=
  match rest with
  | [] => Ok (if at_initial then None else Some (freqs ++ [run], messages))
  | first :: rest' =>
      if decide (first = current) then analyse_loop current (S run) at_initial freqs messages rest'
      else
        let? messages' := step_messages current first at_initial messages in
        analyse_loop first 1 false (freqs ++ [run]) messages' rest'
  end.

(** FailureInfo.cpp L28-111.  The result holds the numbers which are shown as percentages of the number of
    runs, and the messages; [None] is the empty report. *)
Definition analyse_output (outs : list (list (N * text))) : res (option (list nat * text)) :=
  match outs with
  | [] | [_] => Ok None
  | o :: rest => analyse_loop o 1 true [] [] rest
  end.

(** FailureInfo.cpp L98-108: the text of a report.  [percent] stands for the formatting of L37. *)
Definition txt_detected : text :=
  nl :: ["I";"n";"s";"t";"a";"b";"i";"l";"i";"t";"y";" ";"d";"e";"t";"e";"c";"t";"e";"d";" ";"i";"n";" ";"f";"i";"l";"e";" ";""""]%char.
Definition txt_frequencies : text :=
  """"%char :: nl :: ["O";"u";"t";"c";"o";"m";"e";" ";"f";"r";"e";"q";"u";"e";"n";"c";"i";"e";"s";":"]%char ++ [nl].
Definition instability_footer : text := repeat "$"%char 56 ++ [nl].

Fixpoint show_frequencies (percent : nat -> text) (freqs : list nat) : text :=
  match freqs with
  | [] => []
  | [n] => percent n ++ ["%"; "]"]%char ++ [nl; nl]
  | n :: freqs' => percent n ++ ["%"; ","]%char ++ show_frequencies percent freqs'
  end.

Definition report (percent : nat -> text) (filename : text) (r : list nat * text) : text :=
  txt_detected ++ filename ++ txt_frequencies ++ ["["%char] ++ show_frequencies percent (fst r) ++ snd r ++ [nl] ++ instability_footer.

(** A path below the root: its elements.  [<=>] of paths compares their elements in turn. *)
Definition path_compare : list text -> list text -> comparison := list_compare text_compare.

(** FailureInfo.cpp L119-123, [str[pos] = '.'] for the last underscore *)
Definition dot_last (t : text) : text :=
  match list_find (fun c => c = underscore) (reverse t) with
  | Some (k, _) => take (length t - 1 - k) t ++ ["."%char] ++ drop (length t - k) t
  | None => t
  end.

(** FailureInfo.cpp L113-129; [p] is the path of a file: its parent's parent.  If there are too few elements the
    code would go on into the root, which does not occur for files written by [instability_analysis_file]. *)
Definition source_of (p : list text) : text :=
  match reverse p with
  | _ :: _ :: d :: _ => dot_last d
  | _ => []
  end.

(** FailureInfo.cpp L259-275: one group of files *)
Definition analyse_group (g : list (list text * text)) : res (option (text * (list nat * text))) :=
  let? outs := (fix go (g : list (list text * text)) : res (list (list (N * text))) :=
                  match g with
                  | [] => Ok []
                  | f :: g' => let? o := read_output (snd f) [tab] in let? os := go g' in Ok (o :: os)
                  end) g in
  let? r := analyse_output (sort_by output_compare outs) in
  Ok (match r with
      | Some r => Some (match g with f :: _ => source_of (fst f) | [] => [] end, r)
      | None => None
      end).

Fixpoint analyse_groups (gs : list (list (list text * text))) : res (list (text * (list nat * text))) :=
  match gs with
  | [] => Ok []
  | g :: gs' =>
      let? r := analyse_group g in
      let? rs := analyse_groups gs' in
      Ok (match r with Some r => r :: rs | None => rs end)
  end.

(** FailureInfo.cpp L226-279.  [files] are the ".txt" files below the root with their contents, in the order
    of the directory iterator; they are sorted by path.  The reports are given as data. *)
Definition file_compare (f g : list text * text) : comparison := path_compare (fst f) (fst g).
Definition groups (trials : nat) (files : list (list text * text)) : list (list (list text * text)) :=
  map (fun k => take trials (drop (k * trials) files)) (seq 0 (length files / trials)).
Definition instability_reports (trials : nat) (files : list (list text * text)) : res (list (text * (list nat * text))) :=
  if decide (length files mod trials = 0) then analyse_groups (groups trials (sort_by file_compare files))
  else Throw RuntimeError.

Definition txt_none_detected : text :=
  nl :: ["N";"o";" ";"i";"n";"s";"t";"a";"b";"i";"l";"i";"t";"i";"e";"s";" ";"d";"e";"t";"e";"c";"t";"e";"d"]%char ++ [nl].
Definition instability_analysis (percent : nat -> text) (trials : nat) (files : list (list text * text)) : res text :=
  if decide (trials <= 1) then Ok []
  else
    let? rs := instability_reports trials files in
    Ok (match rs with
        | [] => txt_none_detected
        | _ => concat (map (fun r => report percent (fst r) (snd r)) rs)
        end).

(** ** The files *)

Definition txt_output : text := ["O";"u";"t";"p";"u";"t";"_"]%char.
Definition txt_ext : text := [".";"t";"x";"t"]%char.

(** ProjectPaths.cpp L352-359: the file for a test, below the folder of the instability analysis.  [stem] and [ext]
    are those of the file name of the test's source: the folders of the source play no part.  [replace] and
    [replace_all] are those of Substitutions.hpp. *)
Definition dot : text := ["."]%char.
Definition analysis_dir (stem ext name : text) : list text :=
  [stem ++ replace ext dot [underscore];
   map (fun c => if decide (c = " "%char) then underscore else c) name].
Definition analysis_file (stem ext name : text) (index : N) : list text :=
  analysis_dir stem ext name ++ [txt_output ++ decimal index ++ txt_ext].

(** FreeTestCore.cpp L23-45: the file is overwritten if it is there already *)
Definition write_file (fs : list (list text * text)) (p : list text) (o : list (N * text)) : list (list text * text) :=
  (p, write_output o) :: List.filter (fun f => negb (bool_decide (fst f = p))) fs.
