(** Lines written as intended: an option is followed by its arguments, and these by what is nested in it. *)
From Coq Require Import Ascii.
From stdpp Require Import list.
From Verif.Text Require Import Model.
From Verif.CommandLine Require Import Model Spec.

Section written.
  Context {E : Type}.

  Inductive written := Written (o : opt E) (w : text) (args : list text) (sub : list written).

  (** The words of the line *)
  Fixpoint words (u : written) : list text :=
    match u with Written _ w args sub => w :: args ++ concat (map words sub) end.
  (** What is meant *)
  Fixpoint meant (u : written) : otree E :=
    match u with Written o _ args sub => OTree (started o args) (map meant sub) end.

  (** One of the options [os] is used, by its name or by an alias of it, with as many arguments as it has parameters.
      It has a function. *)
  Inductive proper : list (opt E) -> written -> Prop :=
    | proper_use os o w args sub :
        w <> [] -> first_of (fun o => spelt o w) os o -> bound o = true -> length args = length (o_params o) ->
        Forall (proper (o_children o)) sub -> proper os (Written o w args sub).

  Definition spellings (os : list (opt E)) : list text := concat (map (fun o => o_name o :: o_aliases o) os).

  (** The names and aliases of options cannot be mistaken for options nested in others at the same or a lower level.
      [outer]: those of the levels above *)
  Inductive clear : list text -> list (opt E) -> Prop :=
    | clear_level outer os :
        (forall w, w ∈ outer -> w <> [] -> no_option os w /\ w <> help_word /\ given_up os w []) ->
        (forall o, o ∈ os -> clear (spellings os ++ outer) (o_children o)) ->
        clear outer os.
End written.
Arguments written : clear implicits.
