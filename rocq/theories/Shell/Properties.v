(** C90: commands for the shell. *)
From Coq Require Import Ascii String.
From stdpp Require Import list.
From Verif.Base Require Import Outcome.
From Verif.Text Require Import Model Spec.
From Verif.Shell Require Import Model Spec Proofs.
Local Notation "⌜ s ⌝" := (list_ascii_of_string s%string).

(** [&&] is associative, with the empty command as neutral element. *)
Theorem C90_monoid a b c : and_then a (and_then b c) = and_then (and_then a b) c /\ and_then [] a = a /\ and_then a [] = a.
Proof. exact (conj (and_then_assoc a b c) (conj (and_then_empty_l a) (and_then_empty_r a))). Qed.
Print Assumptions C90_monoid.

(** The shell reads the commands of the one and then those of the other. *)
Theorem C90_and a b cs ds : reading a = Some cs -> reading b = Some ds -> reading (and_then a b) = Some (cs ++ ds).
Proof. exact (reading_and_then a b cs ds). Qed.
Print Assumptions C90_and.

Example C90_and_ex :
  reading ⌜"cd x&&ls -l>f"⌝ = Some [Command [⌜"cd"⌝; ⌜"x"⌝] []; Command [⌜"ls"⌝; ⌜"-l"⌝] [Truncate ⌜"1"⌝ ⌜"f"⌝]] /\
  reading ⌜"make all 2>> g"⌝ = Some [Command [⌜"make"⌝; ⌜"all"⌝] [Append ⌜"2"⌝ ⌜"g"⌝]].
Proof. split; vm_compute; reflexivity. Qed.

(** A command with a file for its output: both outputs of the last command of the list go there; the words
    are untouched, even if the last one is, or ends with, a number. *)
Theorem C90_output sc cmd output app cs c : (forall d, last cmd = Some d -> ascii7 d) -> plain output ->
  reading cmd = Some (cs ++ [c]) ->
  exists l, with_output sc cmd output app = Ok l /\ l <> [] /\ reading l = Some (cs ++ [redirected c output app]).
Proof. exact (with_output_reading sc cmd output app cs c). Qed.
Print Assumptions C90_output.

Example C90_output_ex :
  plain ⌜"/tmp/x"⌝ /\ reading ⌜"seq 2"⌝ = Some ([] ++ [Command [⌜"seq"⌝; ⌜"2"⌝] []]) /\
  with_output true ⌜"seq 2"⌝ ⌜"/tmp/x"⌝ false = Ok ⌜"seq 2 > /tmp/x 2>&1"⌝ /\
  with_output true ⌜"seq 2"⌝ ⌜"/tmp/x"⌝ true = Ok ⌜"seq 2 >> /tmp/x 2>&1"⌝ /\
  reading ⌜"seq 2> /tmp/x 2>&1"⌝ <> reading ⌜"seq 2 > /tmp/x 2>&1"⌝.
Proof.
  split; [split; [done|apply (bool_decide_unpack _); by vm_compute]|]. repeat split; [vm_compute; reflexivity..|].
  vm_compute. discriminate.
Qed.

(** Without a file for its output a command stays what it is, and the preamble goes to the terminal. *)
Theorem C90_no_output sc msvc preamble cmd app : with_output sc cmd [] app = Ok cmd /\
  with_preamble sc msvc preamble cmd [] app =
    Ok (match preamble with
        | [] => cmd
        | _ => let newline := if msvc then ⌜"echo/"⌝ else ⌜"echo"⌝ in
               and_then (newline ++ ⌜"&&echo "⌝ ++ preamble ++ ⌜"&&"⌝ ++ newline) cmd
        end).
Proof. exact (without_output sc msvc preamble cmd app). Qed.
Print Assumptions C90_no_output.

(** With a preamble: an empty line, the preamble and another empty line are written first. *)
Theorem C90_preamble sc msvc ws cmd output app cs c :
  Forall plain ws -> Forall (Forall ascii7) ws -> (forall d, last cmd = Some d -> ascii7 d) -> plain output -> reading cmd = Some (cs ++ [c]) ->
  exists l, with_preamble sc msvc (join [blank] ws) cmd output app = Ok l /\
    reading l = Some (match ws with
      | [] => cs ++ [redirected c output app]
      | _ => let newline := if msvc then ⌜"echo/"⌝ else ⌜"echo"⌝ in
             [redirected (Command [newline] []) output app; redirected (Command (⌜"echo"⌝ :: ws) []) output true;
              redirected (Command [newline] []) output true] ++ cs ++ [redirected c output true]
      end).
Proof. exact (with_preamble_reading sc msvc ws cmd output app cs c). Qed.
Print Assumptions C90_preamble.

(** Nothing of what is written gets lost: the file has its former content if the mode is to append, then all
    that the commands write, in this order. *)
Theorem C90_collects sc msvc ws cmd output (a : bool) c said content l :
  Forall plain ws -> Forall (Forall ascii7) ws -> (forall d, last cmd = Some d -> ascii7 d) -> plain output -> reading cmd = Some [c] ->
  redirects c = [] -> with_preamble sc msvc (join [blank] ws) cmd output a = Ok l ->
  forall cs, reading l = Some cs -> List.length said = List.length cs -> Forall usual said ->
  after_all output cs said content = (if a then content else []) ++ concat (map snd (concat said)).
Proof. exact (preamble_collects sc msvc ws cmd output a c said content l). Qed.
Print Assumptions C90_collects.

Example C90_collects_ex :
  with_preamble true false (join [blank] [⌜"Now"⌝; ⌜"building"⌝]) ⌜"make"⌝ ⌜"log"⌝ false =
    Ok ⌜"echo> log 2>&1&&echo Now building>> log 2>&1&&echo>> log 2>&1&&make>> log 2>&1"⌝ /\
  exists cs, reading ⌜"echo> log 2>&1&&echo Now building>> log 2>&1&&echo>> log 2>&1&&make>> log 2>&1"⌝ = Some cs /\ List.length cs = 4 /\
    after_all ⌜"log"⌝ cs [[(stdout, ⌜"/"⌝)]; [(stdout, ⌜"Now building/"⌝)]; [(stdout, ⌜"/"⌝)]; [(stdout, ⌜"cc x.c/"⌝); (stderr, ⌜"error"⌝)]] ⌜"old"⌝ =
      ⌜"/Now building//cc x.c/error"⌝.
Proof. split; [vm_compute; reflexivity|]. eexists. repeat split; vm_compute; reflexivity. Qed.

(** The commands for the build system. *)
Theorem C90_build sc msvc b output : plain (cmake_cache_dir b) -> Forall ascii7 (cmake_cache_dir b) -> plain output ->
  (exists l n, build_cmd sc msvc b output = Ok l /\
    reading l = Some [redirected (Command [n] []) output false; redirected (Command [⌜"echo"⌝; ⌜"Building..."⌝] []) output true;
      redirected (Command [n] []) output true; redirected (Command [⌜"cmake"⌝; ⌜"--build"⌝; ⌜"--preset"⌝; cmake_cache_dir b] []) output true]) /\
  (exists l n, cmake_cmd sc msvc b output None = Ok l /\
    reading l = Some [redirected (Command [n] []) output false; redirected (Command [⌜"echo"⌝; ⌜"Running"⌝; ⌜"CMake..."⌝] []) output true;
      redirected (Command [n] []) output true; redirected (Command [⌜"cmake"⌝; ⌜"--preset"⌝; cmake_cache_dir b] []) output true]).
Proof. exact (fun H1 H2 H3 => conj (build_cmd_reading sc msvc b output H1 H2 H3) (cmake_cmd_reading sc msvc b output H1 H2 H3)). Qed.
Print Assumptions C90_build.

Example C90_build_ex : plain ⌜"clang-20-dbg"⌝ /\ Forall ascii7 ⌜"clang-20-dbg"⌝.
Proof. split; [split; [done|]|]; apply (bool_decide_unpack _); by vm_compute. Qed.

(** With arguments for the executable, "-D" is glued to the preset - whatever the preset -, so that neither the
    preset nor the definition is what it should be. *)
Theorem C90_arguments_refuted sc msvc b output a : plain (cmake_cache_dir b) -> plain a -> Forall ascii7 a -> plain output ->
  exists l n, cmake_cmd sc msvc b output (Some a) = Ok l /\
    reading l = Some [redirected (Command [n] []) output false; redirected (Command [⌜"echo"⌝; ⌜"Running"⌝; ⌜"CMake..."⌝] []) output true;
      redirected (Command [n] []) output true;
      redirected (Command [⌜"cmake"⌝; ⌜"--preset"⌝; cmake_cache_dir b ++ ⌜"-D"⌝; ⌜"EXEC_ARGS"⌝; a] []) output true].
Proof. exact (cmake_cmd_args sc msvc b output a). Qed.
Print Assumptions C90_arguments_refuted.

(** For building and running, the preset is taken from another folder than for building; where the executable
    is in a folder below that of the cache, it is not the preset. *)
Theorem C90_run_refuted : exists b l,
  b = Build ⌜"Release"⌝ ⌜"msvc-rel"⌝ /\ build_and_run_cmd true false b ⌜"out"⌝ = Ok l /\
  last <$> (map words <$> reading l) = Some (Some [⌜"cmake"⌝; ⌜"--build"⌝; ⌜"--preset"⌝; ⌜"Release"⌝; ⌜"--target"⌝; ⌜"run"⌝]).
Proof. eexists _, _. split; [reflexivity|]. split; vm_compute; reflexivity. Qed.
Print Assumptions C90_run_refuted.

(** Paths are not quoted: a folder with a blank in its name is read as two words, and the output goes to a
    file whose name ends at the blank. *)
Theorem C90_paths_refuted :
  reading (cd_cmd ⌜"/my project"⌝) = Some [Command [⌜"cd"⌝; ⌜"/my"⌝; ⌜"project"⌝] []] /\
  exists l, with_output true ⌜"make"⌝ ⌜"/my project/log"⌝ false = Ok l /\
    reading l = Some [Command [⌜"make"⌝; ⌜"project/log"⌝] [Truncate stdout ⌜"/my"⌝; Copy stderr stdout]].
Proof. split; [vm_compute; reflexivity|]. eexists. split; vm_compute; reflexivity. Qed.
Print Assumptions C90_paths_refuted.

(** Where [char] is signed, a command which ends with a character beyond ASCII is undefined behaviour. *)
Theorem C90_characters_refuted : exists cmd, cmd = ⌜"echo "⌝ ++ ["195"; "169"]%char /\ with_output true cmd ⌜"out"⌝ false = UB.
Proof. eexists. split; [reflexivity|]. vm_compute. reflexivity. Qed.
Print Assumptions C90_characters_refuted.
