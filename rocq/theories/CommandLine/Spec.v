(** What is claimed of the parsing of command lines (C36, C37). *)
From Coq Require Import Ascii.
From stdpp Require Import list.
From Verif.Base Require Import Outcome.
From Verif.Text Require Import Model.
From Verif.Graph Require Import Model ModelWeighted SpecTree.
From Verif.CommandLine Require Import Model.

Section spec.
  Context {E : Type}.
  Implicit Types o : opt E.
  Implicit Types os gs : list (opt E).
  Implicit Types w : text.
  Implicit Types ws args : list text.

  (** *** What is written on a command line *)

  (** An empty word; an option, the word it is written as, its arguments and what is nested in it; aliases written as one
      word.  [Junk] takes no word: see [reads]. *)
  Inductive item :=
    | Blank
    | Use o w args (sub : list item)
    | Group w gs
    | Junk gs.

  Fixpoint show_item (i : item) : list text :=
    match i with
    | Blank => [[]]
    | Use _ w args sub => w :: args ++ concat (map show_item sub)
    | Group w _ => [w]
    | Junk _ => []
    end.

  Definition show (is : list item) : list text := concat (map show_item is).

  (** *** What it means *)

  Inductive otree := OTree (x : operation E) (children : list otree).

  Definition started o args : operation E := Operation (o_early o) (o_late o) args.

  (** An option without functions gives its arguments, and what is nested in it, to the operation it is nested in.
      An item gives arguments for that operation, and operations below it. *)
  Fixpoint meaning (i : item) : list text * list otree :=
    match i with
    | Blank => ([], [])
    | Use o _ args sub =>
        let a := concat (map (fun i => (meaning i).1) sub) in
        let ts := concat (map (fun i => (meaning i).2) sub) in
        if bound o then ([], [OTree (started o (args ++ a)) ts]) else (args ++ a, ts)
    | Group _ gs | Junk gs => ([], map (fun o => OTree (started o []) []) (filter (fun o => bound o = true) gs))
    end.

  Definition args_of (is : list item) : list text := concat (map (fun i => (meaning i).1) is).
  Definition trees_of (is : list item) : list otree := concat (map (fun i => (meaning i).2) is).

  (** Functions are called before and after those below them. *)
  Fixpoint calls (t : otree) : list (call E) :=
    match t with
    | OTree x ts => invoke (early x) (arguments x) ++ concat (map calls ts) ++ invoke (late x) (arguments x)
    end.

  (** The nodes of a tree in pre-order, with their parents; the first has number [base]. *)
  Fixpoint flat (par : option nat) (base : nat) (t : otree) : list (option nat * operation E) :=
    match t with
    | OTree x ts =>
        (par, x) :: (fix go b ts :=
                       match ts with
                       | [] => []
                       | t :: ts => let q := flat (Some base) b t in q ++ go (b + length q) ts
                       end) (S base) ts
    end.

  Definition child_rows (ps : list (option nat)) : graph unit :=
    map (fun n => map (fun c => Edge c 0 tt) (children_of ps n)) (seq 0 (length ps)).

  (** The tree of operations is [t]. *)
  Definition represents (g : optree E) (t : otree) : Prop :=
    edges g = child_rows (flat None 0 t).*1 /\ weights g = (flat None 0 t).*2.

  (** *** The grammar *)

  Definition spelt o w : Prop := o_name o = w \/ w ∈ o_aliases o.

  (** [o] is the first of [os] with property [P]. *)
  Definition first_of (P : opt E -> Prop) os o : Prop :=
    exists os1 os2, os = os1 ++ o :: os2 /\ P o /\ Forall (fun o => ~ P o) os1.

  Definition no_option os w : Prop := Forall (fun o => ~ spelt o w) os.

  (** Words which are looked at as several aliases: the first character is passed over, whatever it is, and dashes are. *)
  Definition compound w : Prop :=
    exists c0 c1 cs, w = c0 :: c1 :: cs /\ ~ (c0 = dash /\ (c1 = space \/ c1 = dash)).

  Definition letters w : list ascii := filter (fun c => c <> dash) (tail w).

  Definition stands_for os (c : ascii) o : Prop := first_of (fun o => [dash; c] ∈ o_aliases o) os o.

  (** [w] stands for [gs]. *)
  Definition stand_for os w gs : Prop := compound w /\ Forall2 (stands_for os) (letters w) gs.

  (** [w] does not stand for aliases of [os]; the first ones of its letters, those of [gs], do. *)
  Definition given_up os w gs : Prop :=
    (~ compound w /\ gs = []) \/
    (compound w /\ exists cs1 c cs2, letters w = cs1 ++ c :: cs2 /\ Forall2 (stands_for os) cs1 gs
       /\ Forall (fun o => [dash; c] ∉ o_aliases o) os).

  (** [reads top os n ws is ws']: reading [ws], where the options [os] may be used, gives the items [is] and leaves [ws'].
      The operation the options are nested in has [n] arguments. *)
  Inductive reads : bool -> list (opt E) -> nat -> list text -> list item -> list text -> Prop :=
    | reads_end top os n : reads top os n [] [] []
    | reads_blank top os n ws is ws' :
        reads top os n ws is ws' -> reads top os n ([] :: ws) (Blank :: is) ws'
    | reads_use top os n o w args ws sub ws1 is ws' :
        w <> [] -> first_of (fun o => spelt o w) os o -> (top = true -> bound o = true) ->
        length args = length (o_params o) ->
        below o (if bound o then length args else n + length args) ws sub ws1 ->
        reads top os (n + length (meaning (Use o w args sub)).1) ws1 is ws' ->
        reads top os n (w :: args ++ ws) (Use o w args sub :: is) ws'
    | reads_group top os n w gs ws is ws' :
        no_option os w -> stand_for os w gs -> (top = true -> Forall (fun o => bound o = true) gs) ->
        reads top os n ws is ws' -> reads top os n (w :: ws) (Group w gs :: is) ws'
    (* a word which is not understood ends the options at this level; but the functions of the letters which were have
       been added to the operations *)
    | reads_stop os n w gs ws :
        w <> [] -> no_option os w -> w <> help_word -> given_up os w gs ->
        reads false os n (w :: ws) [Junk gs] (w :: ws)
    (* arguments are missing at the end of the line; but an option without functions gets away with that if the
       operation has as many arguments as the option has parameters *)
    | reads_short os n o w args :
        w <> [] -> first_of (fun o => spelt o w) os o -> bound o = false ->
        length args < length (o_params o) -> n + length args = length (o_params o) ->
        reads false os n (w :: args) [Use o w args []] []
  with below : opt E -> nat -> list text -> list item -> list text -> Prop :=
    | below_none o n ws : o_children o = [] -> below o n ws [] ws
    | below_some o n ws is ws' : o_children o <> [] -> reads false (o_children o) n ws is ws' -> below o n ws is ws'.

  (** [asks top os n ws level ws']: reading [ws], "--help" is met where one of the options [level] might be used, and [ws']
      follow it. *)
  Inductive asks : bool -> list (opt E) -> nat -> list text -> list (opt E) -> list text -> Prop :=
    | asks_here top os n ws : no_option os help_word -> asks top os n (help_word :: ws) os ws
    | asks_blank top os n ws level ws' : asks top os n ws level ws' -> asks top os n ([] :: ws) level ws'
    | asks_group top os n w gs ws level ws' :
        no_option os w -> stand_for os w gs -> (top = true -> Forall (fun o => bound o = true) gs) ->
        asks top os n ws level ws' -> asks top os n (w :: ws) level ws'
    | asks_below top os n o w args ws level ws' :
        w <> [] -> first_of (fun o => spelt o w) os o -> (top = true -> bound o = true) ->
        length args = length (o_params o) -> o_children o <> [] ->
        asks false (o_children o) (if bound o then length args else n + length args) ws level ws' ->
        asks top os n (w :: args ++ ws) level ws'
    | asks_after top os n o w args ws sub ws1 level ws' :
        w <> [] -> first_of (fun o => spelt o w) os o -> (top = true -> bound o = true) ->
        length args = length (o_params o) ->
        below o (if bound o then length args else n + length args) ws sub ws1 ->
        asks top os (n + length (meaning (Use o w args sub)).1) ws1 level ws' ->
        asks top os n (w :: args ++ ws) level ws'.

  (** *** Lines without surprises *)

  (** The options given together: those of the forest, and those below each option. *)
  Inductive level_of (os : list (opt E)) : list (opt E) -> Prop :=
    | level_top : level_of os os
    | level_below l o : level_of os l -> o ∈ l -> level_of os (o_children o).

  (** At each level, a word is no compound, or it is a dash followed by letters which all stand for options without
      parameters, or the first letter stands for nothing. *)
  Definition orderly os w : Prop :=
    forall l, level_of os l ->
      ~ compound w
      \/ (exists cs, w = dash :: cs /\ dash ∉ cs /\ Forall (fun c => exists o, stands_for l c o /\ o_params o = []) cs)
      \/ (exists c cs, letters w = c :: cs /\ Forall (fun o => [dash; c] ∉ o_aliases o) l).

  (** Options without functions have no parameters. *)
  Definition bound_params os : Prop := forall l o, level_of os l -> o ∈ l -> bound o = false -> o_params o = [].

  (** Each option has as many arguments as it has parameters. *)
  Inductive exact_item : item -> Prop :=
    | exact_blank : exact_item Blank
    | exact_use o w args sub : spelt o w -> length args = length (o_params o) -> Forall exact_item sub -> exact_item (Use o w args sub)
    | exact_group cs gs :
        Forall2 (fun c o => [dash; c] ∈ o_aliases o) cs gs -> Forall (fun o => o_params o = []) gs ->
        exact_item (Group (dash :: cs) gs)
    | exact_junk : exact_item (Junk []).

  (** *** Help *)

  Definition help_params (ps : list text) : text :=
    match ps with [] => [] | p :: ps => [space] ++ p ++ concat (map (fun p => [comma; space] ++ p) ps) end.

  (** One line for each option, indented by two spaces for each one it is nested in. *)
  Fixpoint help_lines (depth : nat) o : list text :=
    (repeat space (2 * depth) ++ o_name o
       ++ (match o_aliases o with
           | [] => []
           | _ => [space; "|"%char; space] ++ concat (map (fun a => a ++ [space]) (o_aliases o)) ++ ["|"%char]
           end)
       ++ help_params (o_params o))
    :: concat (map (help_lines (S depth)) (o_children o)).

  Definition help_of os : text := concat (map (fun l => l ++ [nl]) (concat (map (help_lines 0) os))).

  (** The invariant of proper_string; and names are single lines which do not end with a comma. *)
  Inductive tidy : opt E -> Prop :=
    | tidy_opt name aliases params e l cs :
        name <> [] -> nl ∉ name -> last name <> Some comma -> Forall tidy cs ->
        tidy (Opt name aliases params e l cs).
End spec.

Arguments item : clear implicits.
Arguments otree : clear implicits.
