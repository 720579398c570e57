(** Properties of factories (C40). *)
From Coq Require Import Ascii String.
From stdpp Require Import list sorting.
From Verif.Base Require Import Outcome Compare.
From Verif.Factory Require Import Model Spec Proofs.

Definition txt (s : string) : list ascii := list_ascii_of_string s.

(** C40: construction succeeds exactly if no name is empty and no name is given twice; otherwise it throws. *)
Theorem factory_constructed : forall ns, (exists es, make_factory ns = Ok es) <-> proper_names ns.
Proof. exact make_factory_iff. Qed.
Print Assumptions factory_constructed.

Theorem factory_refused : forall ns, ~ proper_names ns -> make_factory ns = Throw LogicError.
Proof. exact make_factory_throw. Qed.
Print Assumptions factory_refused.

(** C40: [make] gives the product of the given name. *)
Theorem factory_makes : forall ns es n k, make_factory ns = Ok es -> ns !! k = Some n -> make es n = Ok k.
Proof. exact make_registered. Qed.
Print Assumptions factory_makes.

Theorem factory_make_throws : forall ns es n, make_factory ns = Ok es -> n ∉ ns -> make es n = Throw RuntimeError.
Proof. exact make_unregistered. Qed.
Print Assumptions factory_make_throws.

(** C40: [make_or] gives the default product exactly for names not registered. *)
Theorem factory_makes_or : forall ns es d n k, make_factory ns = Ok es -> ns !! k = Some n -> make_or d es n = Ok k.
Proof. exact make_or_registered. Qed.
Print Assumptions factory_makes_or.

Theorem factory_makes_default : forall ns es d n, make_factory ns = Ok es -> n ∉ ns -> d < List.length ns -> make_or d es n = Ok d.
Proof. exact make_or_unregistered. Qed.
Print Assumptions factory_makes_default.

(** C40: iteration gives the names in increasing order. *)
Theorem factory_names : forall ns es, make_factory ns = Ok es ->
  names es ≡ₚ ns /\ StronglySorted (fun v w => text_compare v w = Lt) (names es).
Proof. exact names_sorted. Qed.
Print Assumptions factory_names.

(** C40: two factories are equal if and only if they were made with the same names for the same products. *)
Theorem factory_equality : forall ns ns' es es', make_factory ns = Ok es -> make_factory ns' = Ok es' -> es = es' <-> ns = ns'.
Proof. exact factory_eq. Qed.
Print Assumptions factory_equality.

Example factory_example : exists es, make_factory [txt "x"; txt "foo"; txt "y"; txt "bar"] = Ok es /\
  make es (txt "foo") = Ok 1 /\ make es (txt "bar") = Ok 3 /\ make es (txt "baz") = Throw RuntimeError /\
  make_or 2 es (txt "baz") = Ok 2 /\ make_or 2 es (txt "x") = Ok 0 /\
  make_factory [txt "x"; txt "y"; txt "x"] = Throw LogicError /\ make_factory [txt "x"; []] = Throw LogicError.
Proof. eexists. split; [vm_compute; reflexivity|]. by vm_compute. Qed.
