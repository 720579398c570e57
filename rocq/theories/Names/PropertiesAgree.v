(** C91: the compilers agree about the names of types. *)
From Coq Require Import Ascii String.
From stdpp Require Import list.
From Verif.Base Require Import Outcome.
From Verif.Text Require Import Model Spec.
From Verif.Names Require Import Model Spec SpecAgree ProofsCompilers.
Local Notation "⌜ s ⌝" := (list_ascii_of_string s%string).

(** Whatever a type is made of - templates nested to any depth, with any number of types, numbers and truth
    values as arguments -, its tidied name is the same with gcc, clang and MSVC, and on platforms where long is
    as long as long long and others.  Partial: names are made of letters, underscores and colons, without the
    words which are treated specially; there are no pointers, references, enumerators or spans among the
    arguments. *)
Theorem C91_agree_partial sc lp64 cv i64 t : is_type t -> ty_ok t ->
  tidy_name_gcc sc lp64 cv (gcc_text t) = Ok (common_text t) /\
  tidy_name_clang sc lp64 cv (gcc_text t) = Ok (common_text t) /\
  tidy_name_msvc i64 (msvc_text t) = Ok (common_text t).
Proof. exact (compilers_agree sc lp64 cv i64 t). Qed.
Print Assumptions C91_agree_partial.

Definition some_type : ty :=
  Ty Class ⌜"maths::graph"⌝ [Ty Enum ⌜"flavour"⌝ []; Ty Struct ⌜"std::array"⌝ [Ty Built_in ⌜"double"⌝ []; Number ⌜"42"⌝ ⌜"ul"⌝];
    Truth false; Ty Struct ⌜"a_b"⌝ [Ty Class ⌜"classy"⌝ [Truth true; Number ⌜"7"⌝ []]]].

Example C91_agree_ex : is_type some_type /\ ty_ok some_type /\
  gcc_text some_type = ⌜"maths::graph<flavour, std::array<double, 42ul>, false, a_b<classy<true, 7>>>"⌝ /\
  msvc_text some_type = ⌜"class maths::graph<enum flavour,struct std::array<double,42>,0,struct a_b<class classy<1,7> > >"⌝ /\
  common_text some_type = ⌜"maths::graph<flavour, std::array<double, 42>, 0, a_b<classy<1, 7> > >"⌝.
Proof.
  split; [done|]. split; [|by vm_compute].
  assert (forall n, bool_decide (n <> [] /\ Forall (fun c => bool_decide (c ∈ ⌜"abcdefghijklmnopqrstuvwxyz_:"⌝) = true) n /\
    Forall (fun p => find_first p n = None) treated) = true -> name_ok n) as HN.
  { intros n H. apply bool_decide_eq_true in H as (H1&H2&H3). split; [done|]. split.
    - eapply Forall_impl; [exact H2|]. intros c Hc. apply bool_decide_eq_true in Hc. cbn in Hc.
      repeat (apply elem_of_cons in Hc as [-> | Hc]; [first [by right; left | by right; right | left; left; vm_compute; lia]|]). by apply elem_of_nil in Hc.
    - eapply Forall_impl; [exact H3|]. intros p. apply Verif.Text.Proofs.find_first_None. }
  assert (Forall a_digit ⌜"42"⌝ /\ Forall a_digit ⌜"7"⌝) as [H1 H2] by (split; apply (bool_decide_unpack _); by vm_compute).
  assert (Forall a_letter ⌜"ul"⌝) as H3 by (repeat (apply Forall_cons_2; [left; vm_compute; lia|]); constructor).
  assert (Forall (fun n => bool_decide (n <> [] /\ Forall (fun c => bool_decide (c ∈ ⌜"abcdefghijklmnopqrstuvwxyz_:"⌝) = true) n /\
    Forall (fun p => find_first p n = None) treated) = true) [⌜"maths::graph"⌝; ⌜"flavour"⌝; ⌜"std::array"⌝; ⌜"double"⌝; ⌜"a_b"⌝; ⌜"classy"⌝]) as HF.
  { apply (bool_decide_unpack _). by vm_compute. }
  rewrite !Forall_cons in HF. destruct HF as (N1&N2&N3&N4&N5&N6&_).
  apply HN in N1, N2, N3, N4, N5, N6. cbn [some_type ty_ok foldr].
  repeat match goal with |- _ /\ _ => split end; try assumption; try done; constructor.
Qed.

(** In general they do not: of numbers behind a name with a digit, gcc and clang keep the suffix, ... *)
Theorem C91_digits_refuted : exists t, is_type t /\ gcc_text t = ⌜"foo<vec3<2ul>>"⌝ /\
  (forall cv, tidy_name_gcc true true cv (gcc_text t) = Ok ⌜"foo<vec3<2ul> >"⌝) /\ tidy_name_msvc None (msvc_text t) = Ok ⌜"foo<vec3<2> >"⌝.
Proof.
  exists (Ty Struct ⌜"foo"⌝ [Ty Struct ⌜"vec3"⌝ [Number ⌜"2"⌝ ⌜"ul"⌝]]). split; [done|]. split; [done|]. split; [intros cv; vm_compute; reflexivity|by vm_compute].
Qed.
Print Assumptions C91_digits_refuted.

(** ... and they change names which contain "long". *)
Theorem C91_words_refuted : exists t, is_type t /\ gcc_text t = ⌜"foo<prolonged>"⌝ /\
  (forall cv, tidy_name_gcc true true cv (gcc_text t) = Ok ⌜"foo<prolong longed>"⌝) /\ tidy_name_msvc None (msvc_text t) = Ok ⌜"foo<prolonged>"⌝.
Proof.
  exists (Ty Struct ⌜"foo"⌝ [Ty Struct ⌜"prolonged"⌝ []]). split; [done|]. split; [done|]. split; [intros cv; vm_compute; reflexivity|by vm_compute].
Qed.
Print Assumptions C91_words_refuted.
