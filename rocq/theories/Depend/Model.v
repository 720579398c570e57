(** Model of the dependency analysis: Source/sequoia/TestFramework/DependencyAnalyzer.cpp L29-L90 and L208-L572. *)
From Coq Require Import Ascii String.
From stdpp Require Import list.
From Verif.Base Require Import Outcome Compare.
From Verif.Graph Require Import Model ModelTraverse Spec SpecTraverse.
From Verif.Text Require Import Model.
From Verif.Failure Require Import Model.
From Verif.Prune Require Import Model.
From Verif.SoftUpdate Require Import Model.
From Verif.Includes Require Import Model.
Local Open Scope res_scope.
Local Notation length := List.length.

(** A path is the list of its elements; that of an absolute path begins with the root. *)
Definition root_dir : text := [Prune.Model.slash].
Definition is_absolute (p : list text) : bool := bool_decide (head p = Some root_dir).
Definition join_path (p q : list text) : list text := if is_absolute q then q else p ++ q.
Definition parse (s : text) : list text :=
  if decide (head s = Some Prune.Model.slash) then root_dir :: to_path s else to_path s.
Definition print (p : list text) : text :=
  match p with
  | w :: q => if decide (w = root_dir) then Prune.Model.slash :: generic_string q else generic_string p
  | [] => []
  end.
Definition parent_path (p : list text) : list text := removelast p.
Definition file_name (p : list text) : text := default [] (last p).
Definition stem_of (p : list text) : text := stem (file_name p).

Definition is_cpp (p : list text) : bool :=                                           (* L77-L81 *)
  bool_decide (extension (file_name p) ∈ map list_ascii_of_string [".cpp"; ".cc"; ".cxx"]%string).
Definition is_header (p : list text) : bool :=                                        (* L84-L88 *)
  bool_decide (extension (file_name p) ∈ map list_ascii_of_string [".hpp"; ".h"; ".hxx"]%string).

(** What is found in the file system.  [listing] are the paths met by the recursive_directory_iterators of the folders of the
    sources, of the tests and of [others], in this order; [written] and [contents] are the times of last change and the texts
    of the files; [canonical] gives the canonical form of the path of a file which exists; [executable], [stamp] are the
    times of last change of files which may not exist; [passes] and [failures] the texts of the prune files, the former with
    its time; [materials] are the times of last change of the folder of materials of a test, if it exists, and of all that is
    in it. *)
Record project := Project {
  sources : list text;
  tests : list text;
  others : list (list text);
  listing : list (list text);
  written : list text -> N;
  contents : list text -> text;
  canonical : list text -> option (list text);
  executable : option N;
  stamp : option N;
  passes : option (N * text);
  failures : option text;
  materials : list text -> option (N * list N)
}.

Record info := Info { file : list text; time : N; stale : bool }.                     (* L45-L60 *)

(** is_stale, L29-L43, and file_info, L47-L51 *)
Definition make_info (w : project) (prune : N) (f : list text) : res info :=
  match executable w with
  | Some e => if (e <=? written w f)%N then Throw RuntimeError else Ok (Info f (written w f) (prune <? written w f)%N)
  | None => Ok (Info f (written w f) (prune <? written w f)%N)
  end.

(** add_files, L211-L221, for all the folders *)
Fixpoint add_files (w : project) (prune : N) (fs : list (list text)) : res (list info) :=
  match fs with
  | [] => Ok []
  | f :: fs =>
      if is_cpp f || is_header f then
        let? i := make_info w prune f in
        let? l := add_files w prune fs in
        Ok (i :: l)
      else add_files w prune fs
  end.

(** L384-L396; equivalent files are the same, hence any way of sorting gives the same. *)
Definition info_compare (i j : info) : comparison :=
  match text_compare (file_name (file i)) (file_name (file j)) with
  | Eq => path_compare (file i) (file j)
  | c => c
  end.

(** L239-L260 *)
Definition is_included (w : project) (f inc wt : list text) : bool :=
  if is_absolute inc then bool_decide (wt = inc)
  else bool_decide (wt = join_path (sources w) inc)
       || bool_decide (wt = join_path (tests w) inc)
       || bool_decide (wt ∈ map (fun p => join_path p inc) (others w))
       || bool_decide (canonical w (join_path (parent_path f) inc) = Some wt).

(** L236-L262: the first of the nodes with the same file name for which this holds.  In nodes sorted by their file names
    [equal_range] gives all of them. *)
Fixpoint find_node (w : project) (f inc : list text) (ns : list info) : option nat :=
  match ns with
  | [] => None
  | n :: ns =>
      if bool_decide (file_name (file n) = file_name inc) && is_included w f inc (file n) then Some 0
      else S <$> find_node w f inc ns
  end.

(** The files named by the include directives of a file, L234. *)
Definition includes_of (w : project) (cutoff : text) (f : list text) : res (list (list text)) :=
  let? l := get_includes (length (contents w f)) (print (parent_path f)) cutoff (contents w f) in
  Ok (map parse l).

Definition dgraph := graph unit.

(** L266-L297, for node [i], the file [f] of which has an include [inc]. *)
Definition add_include (w : project) (i : nat) (f inc : list text) (g : dgraph) (ns : list info) : res (dgraph * list info) :=
  match find_node w f inc ns with
  | None => Ok (g, ns)
  | Some j =>
      let? g := join Directed i j tt g in                                             (* L267 *)
      if is_cpp f then
        if decide (stem_of f = stem_of inc) then                                      (* L271-L278 *)
          let? a := rget ns i in
          let? b := rget ns j in
          let? ns := rset ns j (Info (file b) (N.max (time a) (time b)) (stale a || stale b)) in
          Ok (g, ns)
        else                                                                          (* L279-L295 *)
          match ns !! S i with
          | Some n => if decide (stem_of (file n) = stem_of f) then
                        let? g := join Directed (S i) j tt g in Ok (g, ns)
                      else Ok (g, ns)
          | None => Ok (g, ns)
          end
      else Ok (g, ns)
  end.

Fixpoint add_includes (w : project) (i : nat) (f : list text) (incs : list (list text)) (g : dgraph) (ns : list info)
    : res (dgraph * list info) :=
  match incs with
  | [] => Ok (g, ns)
  | inc :: incs => let? p := add_include w i f inc g ns in add_includes w i f incs p.1 p.2
  end.

(** build_dependencies, L224-L308, without the file of external dependencies; for the nodes [is]. *)
Fixpoint build_dependencies (w : project) (cutoff : text) (is : list nat) (g : dgraph) (ns : list info)
    : res (dgraph * list info) :=
  match is with
  | [] => Ok (g, ns)
  | i :: is =>
      let? n := rget ns i in
      let? incs := includes_of w cutoff (file n) in
      let? p := add_includes w i (file n) incs g ns in
      build_dependencies w cutoff is p.1 p.2
  end.

(** nodesLate, L405-L417 *)
Fixpoint late_edges (n : nat) (es : list (edge unit)) (ns : list info) : res (list info) :=
  match es with
  | [] => Ok ns
  | e :: es =>
      let? a := rget ns n in
      let? b := rget ns (tgt e) in
      let? ns := rset ns n (Info (file a) (N.max (time a) (time b)) (stale a || stale b)) in
      late_edges n es ns
  end.

Fixpoint late_nodes (g : dgraph) (l : list nat) (ns : list info) : res (list info) :=
  match l with
  | [] => Ok ns
  | n :: l =>
      let? es := rget g n in
      let? ns := late_edges n es ns in
      late_nodes g l ns
  end.

(** in_repo, L63-L75, and [fs::relative] for a file below the folder *)
Fixpoint strip (repo p : list text) : option (list text) :=
  match repo, p with
  | [], [] => None
  | [], _ => Some p
  | d :: repo, e :: p => if decide (d = e) then strip repo p else None
  | _, [] => None
  end.

(** [std::ranges::lower_bound]: bisection of the first [len] elements of [l]; the result is what is left from the position
    found.  [len] steps are enough. *)
Fixpoint bisect (steps : nat) (l : list (list text)) (len : nat) (x : list text) : list (list text) :=
  match steps with
  | 0 => l
  | S steps =>
      match drop (len / 2) l with
      | y :: l' =>
          if len =? 0 then l
          else match path_compare y x with
               | Lt => bisect steps l' (len - len / 2 - 1) x
               | _ => bisect steps l (len / 2) x
               end
      | [] => l
      end
  end.
Definition lower_bound (l : list (list text)) (x : list text) : list (list text) := bisect (length l) l (length l) x.
(** [std::ranges::binary_search] *)
Definition binary_search (l : list (list text)) (x : list text) : bool :=
  match lower_bound l x with
  | y :: _ => match path_compare x y with Lt => false | _ => true end
  | [] => false
  end.

(** materials_modified, L311-L325 *)
Definition materials_modified (w : project) (prune : N) (rel : list text) : bool :=
  match materials w rel with
  | Some (_, ts) => existsb (fun t => prune <? t)%N ts
  | None => false
  end.
(** materials_max_write_time, L328-L344 *)
Definition materials_time (w : project) (rel : list text) : option N :=
  match materials w rel with
  | Some (t, ts) => Some (foldl N.max t ts)
  | None => None
  end.

(** consider_passing_tests, L346-L354 *)
Definition consider_passing (passing : list (list text)) (rel : list text) (s : bool) : bool :=
  match lower_bound passing rel with
  | y :: _ => if decide (y = rel) then false else s
  | [] => s
  end.

(** L432-L452: whether the test with path [rel] is stale *)
Definition test_stale (w : project) (prune : N) (passing : list (list text)) (rel : list text) (i : info) : bool :=
  match passes w with
  | Some (ps, _) =>
      if binary_search passing rel then
        let mt := materials_time w rel in
        let s := stale i || match mt with Some t => (prune <? t)%N | None => false end in  (* L435-L436 *)
        let m := match mt with Some t => N.max t (time i) | None => time i end in          (* L438 *)
        if s && (m <=? ps)%N then consider_passing passing rel s else s                    (* L440-L441 *)
      else stale i || materials_modified w prune rel                                       (* L443-L449 *)
  | None => stale i || materials_modified w prune rel
  end.

(** L426-L454 *)
Fixpoint stale_tests (w : project) (prune : N) (passing : list (list text)) (ns : list info) : list (list text) :=
  match ns with
  | [] => []
  | n :: ns =>
      let l := stale_tests w prune passing ns in
      if is_cpp (file n) then
        match strip (tests w) (file n) with
        | Some rel => if test_stale w prune passing rel n then rel :: l else l
        | None => l
        end
      else l
  end.

(** The nodes and their edges, L376-L403: adding nodes to the empty graph gives nodes without edges. *)
Definition make_nodes (w : project) (prune : N) : res (list info) :=
  let? l := add_files w prune (listing w) in Ok (sort_by info_compare l).
Definition make_graph (w : project) (cutoff : text) (ns : list info) : res (dgraph * list info) :=
  build_dependencies w cutoff (seq 0 (length ns)) (replicate (length ns) []) ns.

(** What the nodes are after the traversal, L419. *)
Definition analyse (w : project) (cutoff : text) (prune : N) : res (list info) :=
  let? ns := make_nodes w prune in
  let? p := make_graph w cutoff ns in
  let? es := traverse_dfs true 0 p.1 in
  late_nodes p.1 (afters es) p.2.

(** find_stale_tests, L366-L458 *)
Definition find_stale_tests (w : project) (cutoff : text) (prune : N) : res (list (list text)) :=
  let? ns := analyse w cutoff prune in
  let? passing := read_tests (snd <$> passes w) [] in
  Ok (sort_by path_compare (stale_tests w prune passing ns)).

(** tests_to_run, L556-L572 *)
Definition tests_to_run (w : project) (cutoff : text) : res (option (list (list text))) :=
  match stamp w with
  | None => Ok None
  | Some prune =>
      let? l := find_stale_tests w cutoff prune in
      let? f := read_tests (failures w) [] in
      Ok (Some (set_union l f))
  end.
