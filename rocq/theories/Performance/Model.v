(** Model of Source/sequoia/TestFramework/PerformanceTestCore.{hpp,cpp}.

    Numbers of type [double] are exact rationals and [root] stands for [std::sqrt]; how numbers are written
    to a stream is a parameter [show].  The clock, the random numbers and the tasks belong to the
    environment: they may depend on everything which has been run before.  Tasks which throw, the capacity
    of vectors and the overflow of [std::size_t] are not modelled. *)
From Coq Require Import Ascii String QArith Qcanon Qround.
From stdpp Require Import list.
From Verif.Base Require Import Outcome Compare.
From Verif.Text Require Import Model.
From Verif.Stats Require Model Spec.
From Verif.Log Require Model.
Local Open Scope res_scope.
Local Open Scope Qc_scope.

Local Notation "⌜ s ⌝" := (list_ascii_of_string s%string).

Inductive task := Fast | Slow.

(** [std::bad_optional_access], thrown by [value()]. *)
Definition value {A} (o : option A) : res A := match o with Some x => Ok x | None => Throw UserError end.

Definition Qc_leb (x y : Qc) : bool := match x ?= y with Gt => false | _ => true end.
Definition Qc_ltb (x y : Qc) : bool := match x ?= y with Lt => true | _ => false end.

(** The arguments of PerformanceTestCore.hpp L78. *)
Record arguments := Args {
  min_speed_up : Qc; max_speed_up : Qc; trials : nat; num_sds : Qc; max_attempts : nat }.

(** Mean and standard deviation. *)
Record stats := Stats { mean_of : Qc; sd_of : Qc }.

Section performance.
  Context (root : Qc -> Qc) (show : Qc -> text).
  Context (coin : list task -> bool)          (* does the fast task come first? *)
          (clock : list task -> task -> Qc).  (* how long does it take? *)

  (** PerformanceTestCore.hpp L102-132: [n] trials; [h] is what has been run so far, latest first. *)
  Fixpoint run_trials (n : nat) (h : list task) (fd sd : list Qc) : list task * list Qc * list Qc :=
    match n with
    | O => (h, fd, sd)
    | S n' =>
        if coin h then
          let fd' := fd ++ [clock h Fast] in
          let h1 := Fast :: h in
          let sd' := sd ++ [clock h1 Slow] in
          run_trials n' (Slow :: h1) fd' sd'
        else
          let sd' := sd ++ [clock h Slow] in
          let h1 := Slow :: h in
          let fd' := fd ++ [clock h1 Fast] in
          run_trials n' (Fast :: h1) fd' sd'
    end.

  (** L141-145: [cbegin()+1] and [cend()-1] of the sorted data; fewer than two data make the range
      invalid. *)
  Definition inner (l : list Qc) : res (list Qc) :=
    match l with
    | [] | [_] => UB
    | _ :: l' => Ok (removelast l')
    end.

  (** L134-139. *)
  Definition compute_stats (l : list Qc) : res stats :=
    let (sig, m) := Stats.Model.sample_standard_deviation (Stats.Spec.exact root) l in
    let? s := value sig in let? x := value m in Ok (Stats x s).

  Definition stats_of (data : list Qc) : res stats :=
    let? l := inner (sort_by Qccompare data) in compute_stats l.

  (** L147-163. *)
  Definition verdict (a : arguments) (f s : stats) : bool :=
    let m_f := mean_of f in let sig_f := sd_of f in let m_s := mean_of s in let sig_s := sd_of s in
    if Qc_ltb (m_f + sig_f) (m_s - sig_s) then
      if Qc_leb sig_s sig_f then
        Qc_leb (min_speed_up a * m_f) (m_s + num_sds a * sig_s) &&
        Qc_leb (m_s - num_sds a * sig_s) (max_speed_up a * m_f)
      else
        Qc_leb (m_s / max_speed_up a) (m_f + num_sds a * sig_f) &&
        Qc_leb (m_f - num_sds a * sig_f) (m_s / min_speed_up a)
    else false.

  (** L165-184. *)
  Definition stats_text (prefix : text) (a : arguments) (st : stats) : text :=
    prefix ++ ⌜ " Task duration: " ⌝ ++ show (mean_of st) ++ ⌜ "s" ⌝ ++ ⌜ " +- " ⌝ ++ show (num_sds a)
      ++ ⌜ " * " ⌝ ++ show (sd_of st) ++ ⌜ "s" ⌝.
  Definition summarizer (a : arguments) (f s : stats) : text :=
    ⌜ " [" ⌝ ++ show (mean_of s / mean_of f) ++ ⌜ "; (" ⌝ ++ show (min_speed_up a) ++ ⌜ ", " ⌝
      ++ show (max_speed_up a) ++ ⌜ ")]" ⌝.
  Definition summary_text (a : arguments) (f s : stats) : res text :=
    let? t := Log.Model.append_lines_ (stats_text ⌜ "Fast" ⌝ a f) [stats_text ⌜ "Slow" ⌝ a s] in
    Ok (t ++ summarizer a f s).

  (** L108-192: the loop, with [r] attempts remaining.  Gives what has been run, the summary and whether
      the check has passed. *)
  Fixpoint attempts (md : Log.Model.mode) (a : arguments) (r : nat) (h : list task) (summary : text) (passed : bool)
    : res (list task * text * bool) :=
    match r with
    | O => Ok (h, summary, passed)
    | S r' =>
        let adjusted := (trials a * (max_attempts a - r + 1))%nat in
        let '(h', fd, sd) := run_trials adjusted h [] [] in
        let? f := stats_of fd in
        let? s := stats_of sd in
        let passed' := verdict a f s in
        let? summary' := summary_text a f s in
        let stop := match md with Log.Model.FalseNegative => negb passed' | _ => passed' end in
        if stop then Ok (h', summary', passed') else attempts md a r' h' summary' passed'
    end.

  (** L78-203.  What is run, the value returned and what is sent to the logger. *)
  Definition check_relative_performance (md : Log.Model.mode) (description : text) (a : arguments)
    : res (list task * bool * Log.Model.event) :=
    if Qc_leb (min_speed_up a) 1 || Qc_leb (max_speed_up a) 1 then Throw LogicError
    else if Qc_ltb (max_speed_up a) (min_speed_up a) then Throw LogicError
    else if Qc_leb (num_sds a) 1 then Throw LogicError
    else if (max_attempts a =? 0)%nat then Throw LogicError
    else if (trials a <? 5)%nat then Throw LogicError
    else
      let? (h, summary, passed) := attempts md a (max_attempts a) [] [] false in
      let? message := Log.Model.append_lines_ description [summary] in
      Ok (h, passed, Log.Model.Scope message
            (Log.Model.PerfCheck :: if passed then [] else [Log.Model.PerfFail []])).
End performance.

(** L242-246: what tests call; three attempts. *)
Definition extender_arguments (minS maxS : Qc) (tr : nat) (sds : Qc) : arguments := Args minS maxS tr sds 3.
Definition default_trials : nat := 5.
Definition default_sds : Qc := Q2Qc 4.

(** L205-229, [calibrate] of [target] ticks of [num/den] seconds, given the seven timings (in seconds).  [T] is
    an integral type, so [std::ceil] gives the result. *)
Definition Qc_ceiling (x : Qc) : Z := Qceiling x.
Definition calibrate (root : Qc -> Qc) (num den : positive) (timings : list Qc) (target : Z) : res Z :=
  let? l := inner (sort_by Qccompare timings) in
  match Stats.Model.sample_standard_deviation (Stats.Spec.exact root) l with
  | (Some sig, Some m) =>
      if Qc_ltb (Q2Qc (inject_Z target * (Zpos num # den))) (m - sig)
      then
        let inverse := (Zpos den / Zpos num)%Z in
        Ok (Qc_ceiling (Stats.Spec.Qc_of_Z inverse * (m + Stats.Spec.Qc_of_Z 5 * sig)))
      else Ok target
  | _ => Ok target
  end.

(** ** Comparison with earlier output, PerformanceTestCore.cpp *)

(** The length of the longest common beginning: where [std::ranges::mismatch] stops. *)
Fixpoint common (l1 l2 : text) : nat :=
  match l1, l2 with
  | x :: l1', y :: l2' => if decide (x = y) then S (common l1' l2') else O
  | _, _ => O
  end.

(** [l.rfind(s, pos)], whether found: an occurrence which begins at or before [pos]. *)
Fixpoint occurs_by (s l : text) (pos : nat) : bool :=
  starts_with s l ||
  match pos, l with
  | S pos', _ :: l' => occurs_by s l' pos'
  | _, _ => false
  end.

(** L36-53, for one pair of delimiters; [npos] is greater than every position. *)
Definition acceptable (line ref : text) (open close : char) : bool :=
  match find_first [open] line, find_first [close] line, find_first [open] ref, find_first [close] ref with
  | Some o, Some c, Some ro, Some rc =>
      if (o <? c)%nat && (ro <? rc)%nat then bool_decide (take (c - o) (drop o line) = take (rc - ro) (drop ro ref)) else true
  | _, _, _, _ => true
  end.

Definition phrase : text := ⌜ "Task duration:" ⌝.

(** L18-64.  Every call drops at least one character. *)
Fixpoint acceptable_mismatch (fuel : nat) (t r : text) : res bool :=
  match fuel with
  | O => NoFuel
  | S fuel' =>
      let pos := common t r in
      let default := Ok ((pos =? List.length t)%nat && (pos =? List.length r)%nat) in
      if (pos <? List.length t)%nat && (pos <? List.length r)%nat && occurs_by phrase t pos then
        match find_from t [nl] pos, find_from r [nl] pos with
        | Some e, Some re =>
            let line := take (e - pos) (drop pos t) in
            let ref := take (re - pos) (drop pos r) in
            if negb (acceptable line ref "-" "*") || negb (acceptable line ref "(" ")") then Ok false
            else acceptable_mismatch fuel' (drop e t) (drop re r)
        | _, _ => default
        end
      else default
  end.

(** L67-71. *)
Definition postprocess (fuel : nat) (t r : text) : res text :=
  let? b := acceptable_mismatch fuel t r in Ok (if b then r else t).

(** L73-100: the diagnostics of a performance test, given the file with earlier diagnostics: [None] if there
    is no such file, [Some None] if it cannot be read. *)
Definition diagnostics_to_use (fuel : nat) (md : Log.Model.mode) (output : text) (file : option (option text)) : res text :=
  match md with
  | Log.Model.Standard => Ok output
  | _ =>
      let? ref := match file with None => Ok [] | Some (Some c) => Ok c | Some None => Throw RuntimeError end in
      postprocess fuel output ref
  end.
