(** Model of Source/sequoia/Core/Object/Suite.hpp: the extraction of the items of a suite into a container or a tree,
    and the filter used by the test runner. *)
From Coq Require Import Ascii.
From stdpp Require Import list.
From Verif.Base Require Import Outcome.
From Verif.Text Require Import Model.
From Verif.Graph Require Import Model ModelWeighted ModelTree.
Local Open Scope res_scope.

Section suite.
  Context {I : Type}.

  (** L43-L63: a suite holds suites, or items which are no suites.  The types of the items are forgotten: [I] is their
      union. *)
  Inductive suite := SItems (name : text) (items : list I) | SSuites (name : text) (subs : list suite).

  Definition suite_name (s : suite) : text := match s with SItems n _ | SSuites n _ => n end.

  (** *** Extraction, L200-L315.  A filter has a state [F]; of the enclosing suites it is given the names (the
      outermost first), which is all that granular_filter, L380-L391, looks at. *)
  Section extract.
    Context {F : Type} (flt : F -> I -> list text -> bool * F).

    (** L210-L222. *)
    Fixpoint leaves_items {T} (t : I -> T) (ns : list text) (items : list I) (f : F) (c : list T) : F * list T :=
      match items with
      | [] => (f, c)
      | i :: items =>
          let (b, f) := flt f i ns in
          leaves_items t ns items f (if b then c ++ [t i] else c)
      end.

    (** L210-L234. *)
    Fixpoint leaves_go {T} (t : I -> T) (previous : list text) (s : suite) (f : F) (c : list T) : F * list T :=
      match s with
      | SItems n items => leaves_items t (previous ++ [n]) items f c
      | SSuites n subs =>
          (fix go (l : list suite) (f : F) (c : list T) : F * list T :=
             match l with
             | [] => (f, c)
             | sub :: l => let (f, c) := leaves_go t (previous ++ [n]) sub f c in go l f c
             end) subs f c
      end.

    (** L285-L294. *)
    Definition extract_leaves {T} (t : I -> T) (s : suite) (f : F) : F * list T := leaves_go t [] s f [].

    Context {W V : Type} `{!EqDecision W}.
    Context (fl : flavour) (d : direction) (w : W).
    Implicit Types g : wgraph W V.

    (** An exception leaves the rest of a function out. *)
    Definition fbind (m : F * res (outcome W V)) (k : F -> wgraph W V -> F * res (outcome W V)) : F * res (outcome W V) :=
      match m with
      | (f, Ok (Done g)) => k f g
      | m => m
      end.

    (** The transformation of the suites and that of the items: neither throws. *)
    Context (ts : suite -> V) (ti : I -> V).

    (** L261-L266. *)
    Fixpoint tree_items (node : nat) (ns : list text) (items : list I) (f : F) g : F * res (outcome W V) :=
      match items with
      | [] => (f, Ok (Done g))
      | i :: items =>
          let (b, f) := flt f i ns in
          fbind (f, if b then (add_node_to_tree fl d w node (ti i) g).2 else Ok (Done g)) (tree_items node ns items)
      end.

    (** L250-L251. *)
    Definition tree_clear (node : nat) g : res (outcome W V) :=
      match targets node g with
      | Ok [] => prune fl d node g
      | Ok _ => Ok (Done g)
      | Throw e => Ok (Failed e g)
      | _ => Ok Undefined
      end.

    (** L236-L282. *)
    Fixpoint tree_go (previous : list text) (s : suite) (parent : nat) (f : F) g : F * res (outcome W V) :=
      let q := add_node_to_tree fl d w parent (ts s) g in                            (* L244 *)
      fbind (f, q.2) (fun f g =>
      fbind (match s with                                                           (* L246-L248 *)
             | SItems n items => tree_items q.1 (previous ++ [n]) items f g
             | SSuites n subs =>
                 (fix go (l : list suite) (f : F) g : F * res (outcome W V) :=      (* L275-L279 *)
                    match l with
                    | [] => (f, Ok (Done g))
                    | sub :: l => fbind (tree_go (previous ++ [n]) sub q.1 f g) (go l)
                    end) subs f g
             end) (fun f g => (f, tree_clear q.1 g))).

    (** L296-L305.  On an empty tree the parent, npos, is not looked at. *)
    Definition extract_tree (s : suite) (f : F) : F * res (outcome W V) := tree_go [] s 0 f (WGraph [] []).

    (** L307-L315. *)
    Definition extract_tree_into (s : suite) (f : F) g (pos : nat) : F * res (outcome W V) := tree_go [] s pos f g.
  End extract.

  (** *** granular_filter, L341-L460 *)
  Context {K : Type}.

  (** L414-L417: the selected suites and items; the flag is set when one is found. *)
  Record gfilter := GFilter { sel_suites : option (list (text * bool)); sel_items : option (list (K * bool)) }.

  (** L431-L442. *)
  Definition make_map {A} (o : option (list A)) : option (list (A * bool)) := option_map (map (fun a => (a, false))) o.

  (** L363-L368. *)
  Definition make_filter (suites : option (list text)) (items : option (list K)) : gfilter :=
    GFilter (make_map suites) (make_map items).

  (** L422-L429. *)
  Definition add_map {A} (o : option (list (A * bool))) (a : A) : option (list (A * bool)) :=
    Some (match o with None => [] | Some l => l end ++ [(a, false)]).

  (** L370-L378. *)
  Definition add_selected_suite (n : text) (f : gfilter) : gfilter := GFilter (add_map (sel_suites f) n) (sel_items f).
  Definition add_selected_item (k : K) (f : gfilter) : gfilter := GFilter (sel_suites f) (add_map (sel_items f) k).

  (** L449-L455. *)
  Fixpoint find_mark {A} (p : A -> bool) (l : list (A * bool)) : bool * list (A * bool) :=
    match l with
    | [] => (false, [])
    | (a, b) :: l =>
        if p a then (true, (a, true) :: l)
        else let (r, l) := find_mark p l in (r, (a, b) :: l)
    end.

  (** L444-L459. *)
  Definition find_opt {A} (p : A -> bool) (o : option (list (A * bool))) : bool * option (list (A * bool)) :=
    match o with
    | None => (false, None)
    | Some l => let (r, l) := find_mark p l in (r, Some l)
    end.

  (** The expansion in L388: every suite is looked up. *)
  Fixpoint find_suites (ns : list text) (o : option (list (text * bool))) : bool * option (list (text * bool)) :=
    match ns with
    | [] => (false, o)
    | n :: ns =>
        let (b, o) := find_opt (fun a => bool_decide (a = n)) o in
        let (b', o) := find_suites ns o in
        (b || b', o)
    end.

  (** L380-L391.  [m k i] is [m_Compare(k, m_Proj(i))]. *)
  Definition granular (m : K -> I -> bool) (f : gfilter) (i : I) (ns : list text) : bool * gfilter :=
    match f with
    | GFilter None None => (true, f)                                              (* L385 *)
    | GFilter ss is =>
        let (b, is) := find_opt (fun k => m k i) is in                            (* L388 *)
        let (b', ss) := find_suites ns ss in
        (b || b', GFilter ss is)                                                  (* L390 *)
    end.

  (** What check_for_missing_tests, Source/sequoia/TestFramework/TestRunner.cpp L682-L724, reports as not found. *)
  Definition missing {A} (o : option (list (A * bool))) : list A :=
    match o with
    | None => []
    | Some l => map fst (filter (fun p : A * bool => p.2 = false) l)
    end.
End suite.
Arguments suite : clear implicits.
Arguments gfilter : clear implicits.
