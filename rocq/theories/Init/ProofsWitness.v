(** Concrete cases: a disk with sequoia and its template, from which projects are made. *)
From Coq Require Import Ascii String.
From stdpp Require Import list gmap strings.
From Verif.Base Require Import Outcome ListLemmas.
From Verif.Text Require Import Model.
From Verif.Materials Require Import Model Spec Proofs.
From Verif.Creator Require Import Model.
From Verif.Init Require Import Model ModelTemplate Spec ProofsCheck ProofsCopy ProofsCreate ProofsAll.
Local Open Scope res_scope.
Local Notation "⌜ s ⌝" := (list_ascii_of_string s%string).
Local Notation length := List.length.

Definition names (l : list string) : path := map list_ascii_of_string l.
Definition here : path := names ["/"; "src"; "sequoia"]%string.
Definition tmpl : list string := ["aux_files"; "ProjectTemplate"]%string.

Definition within (l : list string) (e : entry) : path * entry := (here ++ names l, e).
Definition entries : list (path * entry) :=
  [(names ["/"], Folder); (names ["/"; "src"], Folder); (here, Folder);
   within ["README.md"] (File ⌜"Sequoia"⌝);
   within ["build"] Folder; within ["build"; "TestAll"] (File ⌜"binary"⌝);
   within ["Source"] Folder; within ["Source"; "Maths.hpp"] (File ⌜"template<class>"⌝);
   within ["output"] Folder; within ["output"; "TestSummaries"] Folder; within ["output"; "TestSummaries"; "Maths.txt"] (File ⌜"0 failures"⌝);
   within ["output"; "Prune"] Folder; within ["output"; "Prune"; "TestAll.prune"] (File ⌜"1"⌝);
   within ["aux_files"] Folder; within tmpl Folder;
   within (tmpl ++ [".gitignore"]) (File shipped_ignore);
   within (tmpl ++ ["Source"]) Folder; within (tmpl ++ ["Source"; "projectTemplate"]) Folder;
   within (tmpl ++ ["Source"; "projectTemplate"; "CMakeLists.txt"]) (File shipped_library);
   within (tmpl ++ ["TestAll"]) Folder;
   within (tmpl ++ ["TestAll"; "TestAllMain.cpp"]) (File shipped_main);
   within (tmpl ++ ["TestAll"; "CMakeLists.txt"]) (File shipped_cmake);
   within (tmpl ++ ["dependencies"]) Folder; within (tmpl ++ ["dependencies"; "sequoia"]) Folder;
   within (tmpl ++ ["dependencies"; "sequoia"; ".keep"]) (File []);
   (names ["/"; "home"], Folder); (names ["/"; "home"; "Bars"], Folder); (names ["/"; "home"; "Bars"; ".DS_Store"], File ⌜"x"⌝)]%string.
Definition start : disk := list_to_map entries.

Definition project (p : list string) (git : bool) : data := Data (names p) (⌜"A. N. Other"⌝) (⌜"  "⌝) git (names ["/"; "tmp"; "out.txt"]%string).
Definition foos : data := project ["/"; "home"; "lib"; "Foos"]%string true.
Definition bars : data := project ["/"; "home"; "Bars"]%string false.

Definition text_of (r : res text) : text := match r with Ok c => c | _ => [] end.
Definition year : text := ⌜"2024"⌝.
Definition new_texts (x : data) : texts :=
  let name := List.last (project_root x) [] in
  Texts (text_of (main_text year (copyright x) (code_indent x) name shipped_main)) (text_of (set_proj_name shipped_cmake name))
    (text_of (set_proj_name shipped_library name))
    (if use_git x then Some (shipped_ignore ++ [nl; nl] ++ List.last (output_file x) []) else None).

(** *** The hypotheses are met. *)

Definition in_foldersb (l : list (path * entry)) : bool :=
  forallb (fun x : path * entry => match removelast x.1 with [] => true | p => bool_decide ((list_to_map l : disk) !! p = Some Folder) end) l.
Lemma in_foldersb_ok l : in_foldersb l = true -> in_folders (list_to_map l).
Proof.
  intros H p n [e He] Hp. unfold in_foldersb in H. rewrite forallb_forall in H. apply elem_of_list_to_map_2 in He. apply elem_of_list_In, H in He.
  cbn [fst] in He. rewrite removelast_last in He. destruct p; [done|]. by apply bool_decide_eq_true in He.
Qed.
Lemma start_in_folders : in_folders start.
Proof. apply in_foldersb_ok. vm_compute. reflexivity. Qed.

Lemma prefix_dec_false (p q : path) : below p q = None -> ~ p `prefix_of` q.
Proof. apply below_None. Qed.

Definition acceptableb (d : disk) (x : data) : bool := match check d x with Ok _ => true | _ => false end.
Lemma acceptableb_ok d x : acceptableb d x = true -> acceptable d x.
Proof. intros H. apply check_accepts. unfold acceptableb in H. by destruct (check d x) as [[]| | |]. Qed.

Definition completeb (d : disk) (x : data) : bool :=
  let t := template here d in
  let dep := [⌜"dependencies"⌝; ⌜"sequoia"⌝] in
  bool_decide (d !! t = Some Folder) && bool_decide (d !! (t ++ [⌜"Source"⌝]) = Some Folder)
  && bool_decide (d !! (t ++ [⌜"Source"⌝; ⌜"projectTemplate"⌝]) = Some Folder)
  && bool_decide (d !! (t ++ source_folder (project_root x)) = None)
  && bool_decide (d !! (t ++ dep) = Some Folder)
  && forallb (fun n => bool_decide (n = ⌜".keep"⌝)) (children d (t ++ dep))
  && bool_decide (d !! (t ++ dep ++ [⌜".keep"⌝]) <> Some Folder)
  && forallb (fun n => bool_decide (d !! (t ++ [n]) = None)) ignored
  && bool_decide (d !! (sequoia here d ++ [⌜".keep"⌝]) = None).
Lemma completeb_ok d x : completeb d x = true -> complete here d x.
Proof.
  unfold completeb. cbv zeta. rewrite !andb_true_iff, !forallb_forall, !bool_decide_eq_true. intros [[[[[[[[H1 H2] H3] H4] H5] H6] H7] H8] H9].
  split; try done.
  - intros n Hn. assert (n ∈ children d (template here d ++ [⌜"dependencies"⌝; ⌜"sequoia"⌝])) as Hin.
    { apply elem_of_children. by rewrite <-app_assoc. }
    apply elem_of_list_In, H6 in Hin. by apply bool_decide_eq_true in Hin.
  - intros n Hn. apply elem_of_list_In, H8 in Hn. by apply bool_decide_eq_true in Hn.
Qed.

Definition is_ok (r : res text) : bool := match r with Ok _ => true | _ => false end.
Lemma is_ok_text r : is_ok r = true -> r = Ok (text_of r).
Proof. by destruct r. Qed.

Definition changedb (d : disk) (x : data) : bool :=
  let t := template here d in
  let name := List.last (project_root x) [] in
  bool_decide (d !! (t ++ main_cpp) = Some (File shipped_main)) && is_ok (main_text year (copyright x) (code_indent x) name shipped_main)
  && bool_decide (d !! (t ++ main_cmake) = Some (File shipped_cmake)) && is_ok (set_proj_name shipped_cmake name)
  && bool_decide (d !! (t ++ [⌜"Source"⌝; ⌜"projectTemplate"⌝; ⌜"CMakeLists.txt"⌝]) = Some (File shipped_library)) && is_ok (set_proj_name shipped_library name)
  && bool_decide (d !! (t ++ [⌜".gitignore"⌝]) = Some (File shipped_ignore)) && bool_decide (output_file x <> []).
Lemma changedb_ok d x : changedb d x = true -> changed here d x year (new_texts x).
Proof.
  unfold changedb. cbv zeta. rewrite !andb_true_iff, !bool_decide_eq_true. intros [[[[[[[H1 H2] H3] H4] H5] H6] H7] H8]. split.
  - exists shipped_main. split; [exact H1|]. by apply is_ok_text.
  - exists shipped_cmake. split; [exact H3|]. by apply is_ok_text.
  - exists shipped_library. split; [exact H5|]. by apply is_ok_text.
  - unfold new_texts. cbv zeta. cbn [new_ignore]. destruct (use_git x); [|done]. destruct (output_file x) as [|f fs] eqn:E; [done|].
    exists shipped_ignore. split; [exact H7|]. reflexivity.
Qed.

Fixpoint prefixes (p : path) : list path := match p with [] => [[]] | n :: p => [] :: map (cons n) (prefixes p) end.
Lemma prefixes_ok p q : q `prefix_of` p -> q ∈ prefixes p.
Proof.
  revert q. induction p as [|n p IH]; intros q H.
  - apply prefix_nil_inv in H as ->. left.
  - destruct q as [|m q]; [left|]. apply prefix_cons_inv_1 in H as E. subst m. apply prefix_cons_inv_2 in H. right. apply elem_of_list_fmap. exists q. by split; [|apply IH].
Qed.
Definition way_freeb (d : disk) (p : path) : bool := forallb (fun q => match d !! q with Some (File _) => bool_decide (q = p) | _ => true end) (prefixes p).
Lemma way_freeb_ok d p : way_freeb d p = true -> way_free d p.
Proof.
  unfold way_freeb. rewrite forallb_forall. intros H q c Hq Hne E. apply prefixes_ok, elem_of_list_In, H in Hq. rewrite E in Hq. by apply bool_decide_eq_true in Hq.
Qed.

Definition disjointb (p q : path) : bool := match below p q, below q p with None, None => true | _, _ => false end.
Lemma disjointb_ok p q : disjointb p q = true -> disjoint_paths p q.
Proof. unfold disjointb. destruct (below p q) eqn:E1, (below q p) eqn:E2; try done. intros _. split; by apply below_None. Qed.

Lemma foos_ready : acceptable start foos /\ disjoint_paths here (project_root foos) /\ way_free start (project_root foos) /\ complete here start foos
  /\ changed here start foos year (new_texts foos).
Proof.
  split; [apply acceptableb_ok; vm_compute; reflexivity|]. split; [apply disjointb_ok; vm_compute; reflexivity|].
  split; [apply way_freeb_ok; vm_compute; reflexivity|]. split; [apply completeb_ok; vm_compute; reflexivity|]. apply changedb_ok. vm_compute. reflexivity.
Qed.
Lemma bars_ready : acceptable start bars /\ disjoint_paths here (project_root bars) /\ way_free start (project_root bars) /\ complete here start bars
  /\ changed here start bars year (new_texts bars).
Proof.
  split; [apply acceptableb_ok; vm_compute; reflexivity|]. split; [apply disjointb_ok; vm_compute; reflexivity|].
  split; [apply way_freeb_ok; vm_compute; reflexivity|]. split; [apply completeb_ok; vm_compute; reflexivity|]. apply changedb_ok. vm_compute. reflexivity.
Qed.
Lemma apart : disjoint_paths (project_root foos) (project_root bars).
Proof. apply disjointb_ok. vm_compute. reflexivity. Qed.

(** *** What is created *)

Definition at_path (p : path) (o : outcome) : option (option entry) := match o with Created d => Some (d !! p) | _ => None end.
Definition in_foos (l : list string) : path := project_root foos ++ names l.
Definition same (a : option (option entry)) (b : option entry) : bool := match a with Some a => bool_decide (a = b) | None => false end.

(** A file of sequoia, part of the output, but not the build *)
Definition as_wanted (o : outcome) : bool :=
  same (at_path (in_foos ["dependencies"; "sequoia"; "Source"; "Maths.hpp"]%string) o) (Some (File ⌜"template<class>"⌝))
  && same (at_path (in_foos ["dependencies"; "sequoia"; "output"; "TestSummaries"; "Maths.txt"]%string) o) (Some (File ⌜"0 failures"⌝))
  && same (at_path (in_foos ["dependencies"; "sequoia"; "output"; "Prune"]%string) o) None
  && same (at_path (in_foos ["dependencies"; "sequoia"; "build"]%string) o) None
  && same (at_path (in_foos ["dependencies"; "sequoia"; ".keep"]%string) o) None
  && same (at_path (in_foos ["Source"; "foos"]%string) o) (Some Folder)
  && same (at_path (project_root bars ++ [⌜".DS_Store"⌝]) o) (Some (File ⌜"x"⌝)).
Lemma made_foos : as_wanted (init_projects here year start [foos; bars]) = true.
Proof. vm_compute. reflexivity. Qed.

(** *** What is not so *)

(** An earlier project stays although a later one is rejected, which is not acceptable from the start. *)
Definition odd : data := project ["/"; "home"; "a.b"]%string false.
Definition stays (d0 : disk) (p : path) (o : outcome) : bool :=
  match o with
  | Rejected RuntimeError d => bool_decide (d !! p = Some Folder) && bool_decide (d0 !! p = None)
  | _ => false
  end.
Lemma stays_ok d0 p o : stays d0 p o = true -> exists d, o = Rejected RuntimeError d /\ d <> d0.
Proof.
  destruct o as [|[] d|]; try done. cbn [stays]. intros H. exists d. split; [done|]. apply andb_prop in H as [H1 H2]. apply bool_decide_eq_true in H1, H2.
  intros ->. congruence.
Qed.
Definition rejected_later : bool := negb (acceptableb start odd) && stays start (project_root foos) (init_projects here year start [foos; odd]).
Lemma rejected_later_true : rejected_later = true.
Proof. vm_compute. reflexivity. Qed.
Lemma some_stay : exists xs d', Exists (fun x => ~ acceptable start x) xs /\ init_projects here year start xs = Rejected RuntimeError d' /\ d' <> start.
Proof.
  pose proof rejected_later_true as H. unfold rejected_later in H. apply andb_prop in H as [H1 H2]. exists [foos; odd].
  apply stays_ok in H2 as (d&E&Hd). exists d. split; [|split; [exact E|exact Hd]].
  apply Exists_cons_tl, Exists_cons_hd. intros Ha. apply check_accepts in Ha. unfold acceptableb in H1. rewrite Ha in H1. discriminate H1.
Qed.

(** A project within sequoia is accepted, and sequoia copied into itself. *)
Definition inner : data := project ["/"; "src"; "sequoia"; "projects"; "Foos"]%string false.
Definition undefined (o : outcome) : bool := match o with Broken UB => true | _ => false end.
Lemma undefined_ok o : undefined o = true -> o = Broken UB.
Proof. by destruct o as [| |[]]. Qed.
Definition inside : bool := acceptableb start inner && undefined (init_projects here year start [inner]).
Lemma inside_true : inside = true.
Proof. vm_compute. reflexivity. Qed.
Lemma into_itself_again : exists x, acceptable start x /\ init_projects here year start [x] = Broken UB.
Proof.
  pose proof inside_true as H. unfold inside in H. apply andb_prop in H as [H1 H2]. exists inner. split; [exact (acceptableb_ok _ _ H1)|].
  exact (undefined_ok _ H2).
Qed.

(** A name with another character, not ASCII, is not just rejected. *)
Definition accented : data := Data (names ["/"; "home"]%string ++ [[ascii_of_nat 195; ascii_of_nat 169]]) (⌜"A. N. Other"⌝) (⌜"  "⌝) false [].
Lemma accented_undefined : init_projects here year start [accented] = Broken UB.
Proof. vm_compute. reflexivity. Qed.

(** A name which is accepted, but not an identifier, comes to be the name of a namespace. *)
Definition dashed : data := project ["/"; "home"; "my-app"]%string false.
Definition named_so (d : disk) : bool :=
  match d !! (project_root dashed ++ main_cpp) with
  | Some (File c) => match find_first ⌜"namespace my-app::testing"⌝ c with Some _ => true | None => false end
  | _ => false
  end.
Definition creates (f : disk -> bool) (o : outcome) : bool := match o with Created d => f d | _ => false end.
Lemma creates_ok f o : creates f o = true -> exists d, o = Created d /\ f d = true.
Proof. destruct o as [d| |]; try done. intros H. by exists d. Qed.
Definition dashedb : bool := acceptableb start dashed && creates named_so (init_projects here year start [dashed]).
Lemma dashed_true : dashedb = true.
Proof. vm_compute. reflexivity. Qed.
Lemma dashed_main : exists d', acceptable start dashed /\ init_projects here year start [dashed] = Created d' /\
  exists c pos, d' !! (project_root dashed ++ [⌜"TestAll"⌝; ⌜"TestAllMain.cpp"⌝]) = Some (File c) /\ find_first ⌜"namespace my-app::testing"⌝ c = Some pos.
Proof.
  pose proof dashed_true as H. unfold dashedb in H. apply andb_prop in H as [H1 H2].
  apply creates_ok in H2 as (d&E&Hd). exists d. split; [exact (acceptableb_ok _ _ H1)|]. split; [exact E|].
  unfold named_so in Hd. unfold main_cpp in Hd. destruct (d !! _) as [[c|]|]; try discriminate Hd. exists c.
  destruct (find_first _ c) as [pos|]; [|discriminate Hd]. exists pos. split; reflexivity.
Qed.
