(** Model of the creation of projects: Source/sequoia/TestFramework/ProjectCreator.cpp, with ProjectPaths.cpp as far as used there.
    The file system is that of Materials/Model.v: there are no links, and every operation which is possible succeeds.  Paths are
    lists of names, normal ones; an absolute path begins with the name "/", a slash at the end is an empty name at the end.
    The commands to git and to cmake, L219-L220, L225-L242, are left out: see C90. *)
From Coq Require Import Ascii String.
From stdpp Require Import list gmap strings.
From Verif.Base Require Import Outcome.
From Verif.Text Require Import Model.
From Verif.Prune Require Model.
From Verif.Materials Require Import Model.
From Verif.Creator Require Import Model.
Local Open Scope res_scope.
Local Notation "⌜ s ⌝" := (list_ascii_of_string s%string).

(** project_data, ProjectCreator.hpp L25-L33, without the invocations *)
Record data := Data { project_root : path; copyright : text; code_indent : text; use_git : bool; output_file : path }.

(** ** What is acceptable *)

(** The file or folder which a path with a slash at the end stands for *)
Definition located (p : path) : path := match last p with Some [] => removelast p | _ => p end.

(** What is directly in a folder; the order is that of the iterator, which is not specified. *)
Definition children (d : disk) (p : path) : list text :=
  omap (fun x : path * entry => match below p x.1 with Some [n] => Some n | _ => None end) (map_to_list d).

(** is_appropriate_root, L31-L44; a [directory_iterator] of a file throws. *)
Definition appropriate (d : disk) (p : path) : res bool :=
  match d !! p with
  | None => Ok true
  | Some (File _) => Throw RuntimeError
  | Some Folder => Ok (forallb (fun n => bool_decide (n = ⌜".DS_Store"⌝) || bool_decide (n = ⌜".keep"⌝)) (children d p))
  end.

(** [std::isalnum], of a char: negative values are undefined behaviour; [char] is signed. *)
Definition alnum (c : ascii) : res bool :=
  if (127 <? code c)%nat then UB else Ok (upper_code c || lower_code c || ((48 <=? code c)%nat && (code c <=? 57)%nat)).

(** L201-L206: find_if with [!(isalnum(c) || c == '_' || c == '-')] *)
Fixpoint some_other (name : text) : res bool :=
  match name with
  | [] => Ok false
  | c :: name' =>
      let? b := alnum c in
      if b || bool_decide (c = "_"%char) || bool_decide (c = "-"%char) then some_other name' else Ok true
  end.

(** check_indent, L115-L119 *)
Definition indent_ok (ind : text) : bool := forallb (fun c => bool_decide (c = tab) || bool_decide (c = blank)) ind.

(** L188-L208 *)
Definition check (d : disk) (x : data) : res unit :=
  match project_root x with
  | [] => Throw RuntimeError                                                             (* L188 *)
  | r :: _ =>
      if negb (bool_decide (r = ⌜"/"⌝)) then Throw RuntimeError                          (* L191 *)
      else
        let? ok := appropriate d (located (project_root x)) in                           (* L194 *)
        if negb ok then Throw RuntimeError
        else
          let name := List.last (project_root x) [] in                                   (* L197 *)
          match name with
          | [] => Throw RuntimeError                                                     (* L198 *)
          | _ =>
              let? bad := some_other name in                                             (* L201 *)
              if bad then Throw RuntimeError
              else if indent_ok (code_indent x) then Ok tt else Throw RuntimeError       (* L208 *)
          end
  end.

(** ** Files *)

(** Copying a folder into itself goes on until names are too long; this is not modelled. *)
Definition into_itself (from to : path) : bool := match below from to with Some _ => true | None => false end.

Definition is_folder (e : entry) : bool := match e with Folder => true | File _ => false end.

(** [fs::copy] of a folder to [to] which is there, recursive and skip_existing.  That a file is in place of a folder, or a folder
    in place of a file, is not modelled. *)
Definition copy_skipping (d : disk) (from to : path) : res disk :=
  if into_itself from to then UB
  else match d !! from with
       | Some Folder =>
           if existsb (fun x : path * entry => match d !! x.1 with Some e => xorb (is_folder e) (is_folder x.2) | None => false end) (copies d from to)
           then UB
           else Ok (d ∪ list_to_map (copies d from to))
       | _ => Throw RuntimeError
       end.

(** [fs::rename] of a folder *)
Definition rename (d : disk) (p q : path) : res disk :=
  match d !! p with
  | Some Folder =>
      if decide (p = q) then Ok d
      else
        match d !! removelast q, d !! q, children d q with
        | Some Folder, None, _ | Some Folder, Some Folder, [] => Ok (list_to_map (copies d p q) ∪ remove_all d p)
        | _, _, _ => Throw RuntimeError
        end
  | _ => Throw RuntimeError
  end.

(** [read_modify_write], Streaming.hpp L33-L45 *)
Definition modify (d : disk) (p : path) (f : text -> res text) : res disk :=
  match d !! p with
  | Some (File c) => let? c := f c in Ok (<[p := File c]> d)
  | _ => Throw RuntimeError
  end.

(** ** Texts *)

(** L132-L143 *)
Definition escaped_tabs (ind : text) : text := List.concat (map (fun c => if decide (c = tab) then ["\"%char; "t"%char] else [c]) ind).

(** generate_test_main, L121-L150 *)
Definition main_text (year holder ind name : text) (l : text) : res text :=
  let? l := set_top_copyright year l holder in                                           (* L126 *)
  let? l := untab l ind in                                                               (* L128 *)
  let l := replace l ⌜"Oliver J. Rosten"⌝ holder in                                      (* L129 *)
  let? l := subst l ⌜"myProject"⌝ (uncapitalize name) in                                 (* L130 *)
  Ok (replace l ⌜"\t"⌝ (escaped_tabs ind)).                                              (* L145 *)

(** ** Copying sequoia *)

(** copy_sequoia_subdir, L56-L63.  If the target is not in a folder nothing is copied, and the error is only reported.  What
    happens if files are there already is not modelled. *)
Definition copy_subdir (d : disk) (target dir : path) : res disk :=
  let to := target ++ [List.last dir []] in
  match d !! target with
  | Some Folder =>
      if into_itself dir to then UB
      else if existsb (fun x : path * entry => match d !! x.1 with Some e => negb (is_folder e && is_folder x.2) | None => false end) (copies d dir to)
           then UB
           else Ok (list_to_map (copies d dir to) ∪ d)
  | _ => Ok d
  end.

(** [fs::copy] of a file to [to] *)
Definition copy_file (d : disk) (from to : path) : res disk :=
  match d !! from, d !! to with
  | Some e, Some Folder => let p := to ++ [List.last from []] in if present d p then Throw RuntimeError else Ok (<[p := e]> d)
  | Some e, None => match d !! removelast to with Some Folder => Ok (<[to := e]> d) | _ => Throw RuntimeError end
  | _, _ => Throw RuntimeError
  end.

(** [fs::remove] *)
Definition remove (d : disk) (p : path) : res disk :=
  match d !! p, children d p with
  | None, _ => Ok d
  | Some (File _), _ | Some Folder, [] => Ok (delete p d)
  | Some Folder, _ :: _ => Throw RuntimeError
  end.

Section copying.
  (** The root of the project which is running, ProjectPaths.cpp L167-L181, L192-L197, L317-L350 *)
  Context (parent : path).
  Definition output_dir (root : path) : path := root ++ [⌜"output"⌝].
  Definition sequoia_root (root : path) : path := root ++ [⌜"dependencies"⌝; ⌜"sequoia"⌝].
  Definition diagnostics : path := output_dir parent ++ [⌜"DiagnosticsOutput"⌝].
  Definition test_summaries : path := output_dir parent ++ [⌜"TestSummaries"⌝].
  Definition build_dir : path := parent ++ [⌜"build"⌝].

  (** L70-L79 *)
  Fixpoint copy_some (d : disk) (output dir : path) (ns : list text) : res disk :=
    match ns with
    | [] => Ok d
    | n :: ns =>
        let p := dir ++ [n] in
        let? d := (match d !! p with
                   | Some Folder => if bool_decide (p = diagnostics) || bool_decide (p = test_summaries) then copy_subdir d output p else Ok d
                   | _ => Ok d
                   end) in
        copy_some d output dir ns
    end.

  (** copy_sequoia_output, L65-L80 *)
  Definition copy_output (d : disk) (output dir : path) : res disk :=
    let? d := (if present d output then Ok d else create_directory d output) in
    copy_some d output dir (children d dir).

  (** L92-L109 *)
  Fixpoint copy_entries (d : disk) (location source : path) (ns : list text) : res disk :=
    match ns with
    | [] => Ok d
    | n :: ns =>
        let p := source ++ [n] in
        let? d := (match d !! p with
                   | Some Folder =>
                       if decide (p = output_dir parent) then copy_output d (output_dir location) p          (* L96-L99 *)
                       else if decide (p <> build_dir) then copy_subdir d location p else Ok d               (* L100-L103 *)
                   | _ => copy_file d p location                                                             (* L105-L108 *)
                   end) in
        copy_entries d location source ns
    end.

  (** copy_sequoia, L82-L112 *)
  Definition copy_sequoia (d : disk) (root : path) : res disk :=
    let location := sequoia_root root in
    let source := if present d (sequoia_root parent) then sequoia_root parent else parent in
    let? d := copy_entries d location source (children d source) in
    remove d (location ++ [⌜".keep"⌝]).

  (** ** All *)

  (** ProjectPaths.cpp L212-L217, L231-L235, when the program starts *)
  Definition template (d : disk) : path :=
    (if present d (parent ++ [⌜"aux_files"⌝]) then parent ++ [⌜"aux_files"⌝] else sequoia_root parent ++ [⌜"aux_files"⌝]) ++ [⌜"ProjectTemplate"⌝].

  Definition main_cpp : path := [⌜"TestAll"⌝; ⌜"TestAllMain.cpp"⌝].
  Definition main_cmake : path := [⌜"TestAll"⌝; ⌜"CMakeLists.txt"⌝].
  Definition source_folder (root : path) : path := [⌜"Source"⌝; uncapitalize (List.last root [])].

  (** L212-L223, with git_first_cmd, L247-L252 *)
  Definition create (year : text) (tmpl : path) (d : disk) (x : data) : res disk :=
    let root := project_root x in
    let name := List.last root [] in
    let? d := create_directories d root in                                                           (* L212 *)
    let? d := copy_skipping d tmpl root in                                                           (* L213 *)
    let? d := rename d (root ++ [⌜"Source"⌝; ⌜"projectTemplate"⌝]) (root ++ source_folder root) in   (* L214 *)
    let? d := modify d (root ++ main_cpp) (main_text year (copyright x) (code_indent x) name) in     (* L216 *)
    let? d := modify d (root ++ main_cmake) (fun l => set_proj_name l name) in                       (* L159 *)
    let? d := modify d (root ++ source_folder root ++ [⌜"CMakeLists.txt"⌝]) (fun l => set_proj_name l name) in   (* L164 *)
    let? d := (match use_git x, output_file x with
               | true, _ :: _ => modify d (root ++ [⌜".gitignore"⌝]) (fun l => Ok (l ++ [nl; nl] ++ List.last (output_file x) []))
               | _, _ => Ok d
               end) in                                                                               (* L249-L252 *)
    copy_sequoia d root.                                                                             (* L223 *)

  (** What comes of it: all is done; a project is not acceptable, [d] is then the disk; something goes wrong with files. *)
  Inductive outcome := Created (d : disk) | Rejected (e : exn) (d : disk) | Broken (r : res disk).

  (** init_projects, L182-L244 *)
  Fixpoint init_from (year : text) (tmpl : path) (d : disk) (xs : list data) : outcome :=
    match xs with
    | [] => Created d
    | x :: xs =>
        match check d x with
        | Ok _ => match create year tmpl d x with Ok d => init_from year tmpl d xs | r => Broken r end
        | Throw e => Rejected e d
        | UB => Broken UB
        | NoFuel => Broken NoFuel
        end
    end.
  Definition init_projects (year : text) (d : disk) (xs : list data) : outcome := init_from year (template d) d xs.
End copying.

(** make_new_build_paths, L171-L180: executable_dir and cmake_cache_dir of the new project *)
Definition new_build (root executable cache : path) (cache_there : bool) : res (path * path) :=
  if negb cache_there then Throw LogicError
  else
    let base := removelast cache in
    let? e := Prune.Model.rebase_from executable base in
    let? c := Prune.Model.rebase_from cache base in
    Ok (root ++ [⌜"build"⌝; ⌜"TestAll"⌝] ++ e, root ++ [⌜"build"⌝; ⌜"TestAll"⌝] ++ c).
