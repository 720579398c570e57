(** Model of the parsing of command lines, Source/sequoia/Parsing/CommandLineArguments.cpp and CommandLineArguments.hpp.

    Function objects are values of a type [E]; std::function may be empty.  The trees of options are given as inductive
    trees: the children of a node are those its edges lead to, in their order. *)
From Coq Require Import Ascii.
From stdpp Require Import list.
From Verif.Base Require Import Outcome.
From Verif.Text Require Import Model.
From Verif.Graph Require Import Model ModelWeighted ModelTree ModelTraverse.
Local Open Scope res_scope.

Definition dash : ascii := "-"%char.
Definition space : ascii := " "%char.
Definition comma : ascii := ","%char.

(** "--help" *)
Definition help_word : text :=
  [dash; dash; "h"%char; "e"%char; "l"%char; "p"%char].

Section commandline.
  Context {E : Type}.

  (** option, CommandLineArguments.hpp L78-L85, and the options below it. *)
  Inductive opt := Opt (name : text) (aliases params : list text) (early late : option E) (children : list opt).

  Definition o_name (o : opt) : text := match o with Opt n _ _ _ _ _ => n end.
  Definition o_aliases (o : opt) : list text := match o with Opt _ a _ _ _ _ => a end.
  Definition o_params (o : opt) : list text := match o with Opt _ _ p _ _ _ => p end.
  Definition o_early (o : opt) : option E := match o with Opt _ _ _ e _ _ => e end.
  Definition o_late (o : opt) : option E := match o with Opt _ _ _ _ l _ => l end.
  Definition o_children (o : opt) : list opt := match o with Opt _ _ _ _ _ c => c end.

  Definition is_some {A} (x : option A) : bool := match x with Some _ => true | None => false end.

  (** [early || late] *)
  Definition bound (o : opt) : bool := is_some (o_early o) || is_some (o_late o).

  (** operation, CommandLineArguments.hpp L98-L102. *)
  Record operation := Operation { early : option E; late : option E; arguments : list text }.

  Definition optree : Type := wgraph unit operation.

  (** operation_data, L185-L189.  A tree_adaptor is a pointer to an element of m_Operations, given as its position, and a
      node. *)
  Record opdata := OpData { oper : option (nat * nat); saturated : nat }.

  (** The arguments from m_Index on, m_Operations and m_Help, L191-L194. *)
  Record pstate := PState { rest : list text; ops : list optree; help : text }.

  Definition set_rest (r : list text) (st : pstate) : pstate := PState r (ops st) (help st).

  (** The tree an adaptor refers to.  A pointer to an element of a vector is not used after an element has been added to the
      vector, for it may be invalid: only the last element is ever referred to. *)
  Definition tree_at (a : nat * nat) (st : pstate) : res optree :=
    if S (fst a) =? length (ops st) then rget (ops st) (fst a) else UB.

  Definition set_tree (a : nat * nat) (t : optree) (st : pstate) : pstate :=
    PState (rest st) (<[fst a := t]> (ops st)) (help st).

  (** DynamicTree.hpp L294-L298. *)
  Definition root_weight (a : nat * nat) (st : pstate) : res operation :=
    let? t := tree_at a st in rget (weights t) (snd a).

  Definition num_args (a : nat * nat) (st : pstate) : res nat :=
    let? w := root_weight a st in Ok (length (arguments w)).

  Definition emplace_arg (x : text) (w : operation) : operation :=
    Operation (early w) (late w) (arguments w ++ [x]).

  (** CommandLineArguments.cpp L248-L252. *)
  Definition is_alias (o : opt) (s : text) : bool := bool_decide (s ∈ o_aliases o).

  (** L107-L109 *)
  Definition named (o : opt) (s : text) : bool := bool_decide (o_name o = s) || is_alias o s.

  (** std::ranges::find_if *)
  Fixpoint find_opt (p : opt -> bool) (os : list opt) : option opt :=
    match os with
    | [] => None
    | o :: os => if p o then Some o else find_opt p os
    end.

  (** process_option, L190-L220; [top] is topLevel == top_level::yes. *)
  Definition process_option (o : opt) (cur : opdata) (top : bool) (st : pstate) : res (opdata * pstate) :=
    let w := Operation (o_early o) (o_late o) [] in
    if top then
      if bound o then
        Ok (OpData (Some (length (ops st), 0)) 0,
            PState (rest st) (ops st ++ [WGraph [[]] [w]]) (help st))               (* L197-L198 *)
      else Throw LogicError                                                         (* L194-L195 *)
    else
      match ops st, oper cur with
      | _ :: _, Some a =>
          if bound o then
            let? t := tree_at a st in
            match add_node_to_tree Directed Forward tt (snd a) w t with             (* L208 *)
            | (n, Ok (Done t)) => Ok (OpData (Some (fst a, n)) 0, set_tree a t st)
            | (_, Ok (Failed e _)) => Throw e
            | (_, Throw e) => Throw e
            | (_, NoFuel) => NoFuel
            | _ => UB
            end
          else
            let? n := num_args a st in Ok (OpData (Some a) n, st)                   (* L213 *)
      | _, _ => Throw LogicError                                                    (* L202-L203 *)
      end.

  (** process_concatenated_aliases, L222-L246: the loop of L228-L242. *)
  Fixpoint group_loop (os : list opt) (cs : text) (cur : opdata) (top : bool) (st : pstate) : res (bool * pstate) :=
    match cs with
    | [] => Ok (true, st)
    | c :: cs =>
        if bool_decide (c = dash) then group_loop os cs cur top st                  (* L231 *)
        else
          match find_opt (fun o => is_alias o [dash; c]) os with                    (* L233-L235 *)
          | None => Ok (false, st)                                                  (* L237 *)
          | Some o =>
              let? p := process_option o cur top st in                              (* L240 *)
              group_loop os cs cur top (snd p)
          end
    end.

  (** L225-L226 *)
  Definition process_group (os : list opt) (arg : text) (cur : opdata) (top : bool) (st : pstate) : res (bool * pstate) :=
    match arg with
    | c0 :: (c1 :: _) as cs =>
        if bool_decide (c0 = dash) && (bool_decide (c1 = space) || bool_decide (c1 = dash)) then Ok (false, st)
        else group_loop os cs cur top st
    | _ => Ok (false, st)
    end.

  (** *** Help *)

  (** L277-L278 *)
  Definition pop_comma (h : text) : text :=
    match last h with
    | Some c => if bool_decide (c = comma) then take (length h - 1) h else h
    | None => h
    end.

  (** nodeEarly, L264-L283; the indentation is changed as well. *)
  Definition help_early (o : opt) (h ind : text) : res (text * text) :=
    let? n := indent (S (length (o_name o))) (o_name o) ind in                      (* L267 *)
    let h := h ++ n in
    let h := match o_aliases o with
             | [] => h
             | _ => h ++ [space; "|"%char; space] ++ concat (map (fun a => a ++ [space]) (o_aliases o)) ++ ["|"%char]  (* L270-L275 *)
             end in
    let h := h ++ concat (map (fun p => [space] ++ p ++ [comma]) (o_params o)) in   (* L278-L281 *)
    Ok (pop_comma h ++ [nl], ind ++ [space; space]).                                (* L283-L287 *)

  (** L291: depth first search of a tree from one of its nodes is what C21 says it is; nodeLate, L290. *)
  Fixpoint help_tree (o : opt) (h ind : text) : res (text * text) :=
    let? p := help_early o h ind in
    let? p := (fix go (os : list opt) (h ind : text) : res (text * text) :=
                 match os with
                 | [] => Ok (h, ind)
                 | o :: os => let? p := help_tree o h ind in go os (fst p) (snd p)
                 end) (o_children o) (fst p) (snd p) in
    Ok (fst p, trim (snd p) 2).

  (** L255-L297 *)
  Fixpoint help_loop (os : list opt) (h ind : text) : res text :=
    match os with
    | [] => Ok h
    | o :: os => let? p := help_tree o h ind in help_loop os (fst p) (snd p)
    end.

  Definition generate_help (os : list opt) : res text := help_loop os [] [].

  (** *** The loop *)

  (** How an argument is dealt with where an option is expected, L104-L134: by the next argument (continue), by a return, or
      by an option and its operation. *)
  Inductive found := Continue (st : pstate) | Return (st : pstate) | Go (o : opt) (cur : opdata) (st : pstate).

  Definition expect_option (os : list opt) (arg : text) (cur : opdata) (top : bool) (st : pstate) : res found :=
    if bool_decide (arg = []) then Ok (Continue st)                                 (* L104 *)
    else
      match find_opt (fun o => named o arg) os with                                 (* L106-L110 *)
      | None =>
          if bool_decide (arg = help_word) then                                     (* L114-L118 *)
            let? h := generate_help os in Ok (Return (PState (rest st) (ops st) h))
          else
            let? p := process_group os arg cur top st in                            (* L120 *)
            if fst p then Ok (Continue (snd p))
            else if top then Throw RuntimeError                                     (* L123-L124 *)
            else Ok (Return (PState (arg :: rest st) (ops (snd p)) (help (snd p)))) (* L127-L128 *)
      | Some o =>
          let? p := process_option o cur top st in Ok (Go o (fst p) (snd p))        (* L131-L132 *)
      end.

  (** L135-L144 *)
  Definition add_argument (o : opt) (arg : text) (cur : opdata) (a : nat * nat) (st : pstate) : res found :=
    let? n := num_args a st in
    if n <? length (o_params o) + saturated cur then
      let? t := tree_at a st in
      match mutate_node_weight_w (snd a) (emplace_arg arg) t with                   (* L142 *)
      | Done t => Ok (Go o cur (set_tree a t st))
      | Failed e _ => Throw e
      | _ => UB
      end
    else Ok (Go o cur st).

  (** L164-L188 *)
  Definition end_check (copt : option opt) (cur : opdata) (st : pstate) : res pstate :=
    match ops st, copt with
    | _ :: _, Some o =>
        match oper cur with
        | None => Throw LogicError                                                  (* DynamicTree.hpp L240 *)
        | Some a =>
            let? n := num_args a st in
            if n =? length (o_params o) then Ok st else Throw RuntimeError          (* L166, L187 *)
        end
    | _, _ => Ok st
    end.

  (** The loop of L99-L162 with what follows it; [copt] is currentOptionTree, [cur] is currentOperationData.
      Every turn takes an argument. *)
  Fixpoint parse_loop (fuel : nat) (os : list opt) (prev : opdata) (top : bool) (copt : option opt) (cur : opdata)
      (st : pstate) : res pstate :=
    match rest st with
    | [] => end_check copt cur st
    | arg :: r =>
        match fuel with
        | O => NoFuel
        | S fuel =>
            let st := set_rest r st in                                              (* L101 *)
            let? f := match oper cur, copt with
                      | Some a, Some o => add_argument o arg cur a st
                      | _, _ => expect_option os arg cur top st
                      end in
            match f with
            | Continue st => parse_loop fuel os prev top copt cur st
            | Return st => Ok st
            | Go o cur st =>
                match oper cur with
                | None => Throw LogicError                                          (* L146 *)
                | Some a =>
                    let? n := num_args a st in
                    if n =? length (o_params o) + saturated cur then                (* L148 *)
                      let? st :=
                        match help st, o_children o with                            (* L95 *)
                        | [], _ :: _ => parse_loop fuel (o_children o) cur false None cur st  (* L155-L158 *)
                        | _, _ => Ok st
                        end in
                      parse_loop fuel os prev top None prev st                      (* L160-L161 *)
                    else parse_loop fuel os prev top (Some o) cur st
                end
            end
        end
    end.

  (** outcome, CommandLineArguments.hpp L114-L119. *)
  Record outcome := Outcome { zeroth_arg : text; operations : list optree; help_text : text }.

  (** The constructor, CommandLineArguments.cpp L81-L90, and parse, L300-L306.  [args] are the elements of argv. *)
  Definition parse (args : list text) (os : list opt) : res outcome :=
    let zeroth := match args with [] => [] | z :: _ => z end in
    let? st := match os with
               | [] => Ok (PState (tail args) [] [])                                (* L95 *)
               | _ => parse_loop (length args) os (OpData None 0) true None (OpData None 0) (PState (tail args) [] [])
               end in
    Ok (Outcome zeroth (ops st) (help st)).

  (** *** Invocation *)

  Inductive call := Zeroth (arg : text) | Invoke (f : E) (args : list text).

  Definition invoke (f : option E) (args : list text) : list call :=
    match f with Some f => [Invoke f args] | None => [] end.

  (** CommandLineArguments.hpp L149-L156 *)
  Definition calls_of_event (t : optree) (x : event) : res (list call) :=
    match x with
    | Before n => let? w := rget (weights t) n in Ok (invoke (early w) (arguments w))
    | After n => let? w := rget (weights t) n in Ok (invoke (late w) (arguments w))
    | _ => Ok []
    end.

  Fixpoint calls_of_events (t : optree) (xs : list event) : res (list call) :=
    match xs with
    | [] => Ok []
    | x :: xs => let? c := calls_of_event t x in let? cs := calls_of_events t xs in Ok (c ++ cs)
    end.

  (** L144-L158 *)
  Fixpoint calls_of_trees (ts : list optree) : res (list call) :=
    match ts with
    | [] => Ok []
    | t :: ts =>
        let? xs := traverse_dfs false 0 (edges t) in
        let? c := calls_of_events t xs in
        let? cs := calls_of_trees ts in
        Ok (c ++ cs)
    end.

  (** parse_invoke_depth_first, L133-L162, for functions which do not throw: the help and the calls made. *)
  Definition parse_invoke (args : list text) (os : list opt) : res (text * list call) :=
    let? o := parse args os in
    match help_text o with
    | [] => let? cs := calls_of_trees (operations o) in Ok ([], Zeroth (zeroth_arg o) :: cs)
    | h => Ok (h, [])
    end.
End commandline.

Arguments opt : clear implicits.
Arguments operation : clear implicits.
Arguments optree : clear implicits.
Arguments opdata : clear implicits.
Arguments pstate : clear implicits.
Arguments outcome : clear implicits.
Arguments call : clear implicits.
