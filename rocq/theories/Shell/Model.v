(** Model of Source/sequoia/Runtime/ShellCommands.{hpp,cpp} and Source/sequoia/TestFramework/Commands.cpp:
    the texts handed to the shell.  Paths are texts here ([path::string()]); the shell itself is described in
    [Spec.v]. *)
From Coq Require Import Ascii String.
From stdpp Require Import list.
From Verif.Base Require Import Outcome.
From Verif.Text Require Import Model.
From Verif.Names Require Import Model.
Local Open Scope res_scope.
Local Notation "⌜ s ⌝" := (list_ascii_of_string s%string).

(** ShellCommands.hpp L20: [append_mode]; [true] for [yes] *)
Definition append_mode := bool.

(** ShellCommands.hpp L45-51: [operator&&]; a command is its text *)
Definition and_then (lhs rhs : text) : text :=
  match rhs, lhs with
  | [], _ => lhs
  | _, [] => rhs
  | _, _ => lhs ++ ⌜"&&"⌝ ++ rhs
  end.

(** ShellCommands.cpp L20-31: the private constructor; [sc] says whether [char] is signed, in which case
    [std::isdigit] must not be given other characters than those of ASCII *)
Definition with_output (sc : bool) (cmd output : text) (app : append_mode) : res text :=
  match output with
  | [] => Ok cmd
  | _ =>
      let? cmd := match last cmd with
                  | Some c => let? d := isdigit sc c in Ok (if d : bool then cmd ++ ⌜" "⌝ else cmd)
                  | None => Ok cmd
                  end in
      Ok (cmd ++ (if app then ⌜">> "⌝ else ⌜"> "⌝) ++ output ++ ⌜" 2>&1"⌝)
  end.

(** ShellCommands.cpp L33-50: the constructor with a preamble; [msvc] is [with_msvc_v] *)
Definition with_preamble (sc msvc : bool) (preamble cmd output : text) (app : append_mode) : res text :=
  let? pre := match preamble with
              | [] => Ok []
              | _ =>
                  let newline := if msvc then ⌜"echo/"⌝ else ⌜"echo"⌝ in
                  let? a := with_output sc newline output app in
                  let? b := with_output sc (⌜"echo "⌝ ++ preamble) output true in
                  let? c := with_output sc newline output true in
                  Ok (and_then (and_then a b) c)
              end in
  let? last := with_output sc cmd output (match pre with [] => app | _ => true end) in
  Ok (and_then pre last).

(** ShellCommands.cpp L58-62 *)
Definition cd_cmd (dir : text) : text := ⌜"cd "⌝ ++ dir.

(** ProjectPaths.hpp L222-261: what is used of [build_paths]: the last elements of the two folders
    ([back(...).generic_string()]) *)
Record build_paths := Build { executable_dir : text; cmake_cache_dir : text }.

(** Commands.cpp L30-43 *)
Definition cmake_cmd (sc msvc : bool) (b : build_paths) (output : text) (args : option text) : res text :=
  let cmd := ⌜"cmake --preset "⌝ ++ cmake_cache_dir b in
  let cmd := match args with Some a => cmd ++ ⌜"-D EXEC_ARGS "⌝ ++ a | None => cmd end in
  with_preamble sc msvc ⌜"Running CMake..."⌝ cmd output false.

(** Commands.cpp L45-51 *)
Definition build_cmd (sc msvc : bool) (b : build_paths) (output : text) : res text :=
  with_preamble sc msvc ⌜"Building..."⌝ (⌜"cmake --build --preset "⌝ ++ cmake_cache_dir b) output false.

(** Commands.cpp L53-59 *)
Definition build_and_run_cmd (sc msvc : bool) (b : build_paths) (output : text) : res text :=
  with_preamble sc msvc ⌜"Building..."⌝ (⌜"cmake --build --preset "⌝ ++ executable_dir b ++ ⌜" --target run"⌝) output false.
