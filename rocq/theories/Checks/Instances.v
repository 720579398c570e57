(** Some types to try the checks on. *)
From stdpp Require Import list.
From Verif.Base Require Import Outcome Order ListLemmas.
From Verif.Checks Require Import Model Spec.

(** Classes: 0 is [int]; 1 has neither operators nor testers; 2 is like
    [std::filesystem::path], with [==] and a tester for equivalence; 3 has
    [==] but cannot be printed; 4 has a tester for equality only.
    Ranges: 0 is like [std::vector], 1 like [std::span], 2 is an array, 3 is a
    list with a name. *)
Definition sample : env := {|
  e_array := λ c, Nat.eqb c 2;
  e_values := λ c, negb (Nat.eqb c 2);
  e_plain := λ c, match c with 0 | 2 | 3 => Some Nat.eqb | _ => None end;
  e_eq := λ c, match c with
               | 0 => Some (λ _ _ b, b)
               | 2 => Some (λ s s' _, Nat.eqb s s')
               | 3 => Some (λ s s' b, Nat.eqb s s' && b)
               | _ => None
               end;
  e_report := λ T, match T with TClass 0 | TClass 2 | TPtr _ => true | _ => false end;
  e_test := λ f T U, match f, T, U with
                     | Equivalence, TClass 2, TClass 2 =>
                         Some (λ x y, match x, y with
                                      | VAtom n, VAtom n' => if Nat.eqb (n mod 10) (n' mod 10) then [] else [([], WUser 0)]
                                      | _, _ => []
                                      end)
                     | Equality, TClass 4, TClass 4 =>
                         Some (λ x y, match x, y with
                                      | VAtom n, VAtom n' => if Nat.eqb n n' then [] else [([], WUser 0)]
                                      | _, _ => []
                                      end)
                     | _, _, _ => None
                     end;
  e_cross := λ _ _, None;
|}.

Definition named (c : nat) : bool := Nat.eqb c 3.

(** What is at an address. *)
Definition sample_heap (a : nat) : val := VAtom (a mod 3).

Lemma sample_honest : honest named sample_heap sample.
Proof.
  constructor.
  - intros c f s s' b Hf Ha. destruct c as [|[|[|[|c]]]]; try discriminate; cbn in Hf; apply (inj Some) in Hf as <-; cbn.
    + naive_solver.
    + rewrite andb_true_iff, Nat.eqb_eq. naive_solver.
  - intros c f n n' Hf. destruct c as [|[|[|[|c]]]]; try discriminate; cbn in Hf; apply (inj Some) in Hf as <-; apply Nat.eqb_eq.
  - intros c. cbn. by intros ->.
  - intros c _. cbn. by intros ->.
  - intros T t x y Ht Hx Hy. destruct T as [c| | | | | | | | |]; try discriminate.
    destruct c as [|[|[|[|[|c]]]]]; try discriminate. cbn in Ht. apply (inj Some) in Ht as <-.
    destruct x as [n| | | | | | | | | |], y as [n'| | | | | | | | | |]; try done.
    cbn. destruct (Nat.eqb_spec n n'); naive_solver.
Qed.

Lemma sample_lenient : lenient named sample_heap sample.
Proof.
  intros f T t x y Ht Hx Hy Hs. destruct T as [c| | | | | | | | |]; try (by destruct f).
  destruct c as [|[|[|[|[|c]]]]]; try (by destruct f);
    destruct x as [n| | | | | | | | | |], y as [n'| | | | | | | | | |]; try done; cbn in Hs; subst;
    destruct f; try discriminate; cbn in Ht; apply (inj Some) in Ht as <-; by rewrite Nat.eqb_refl.
Qed.

Lemma sample_places T t x y p w :
  e_test sample Equality T T = Some t → has_type sample_heap T x → has_type sample_heap T y →
  (p, w) ∈ t x y → differ_at named T x y p.
Proof.
  intros Ht Hx Hy. destruct T as [c| | | | | | | | |]; try discriminate.
  destruct c as [|[|[|[|[|c]]]]]; try discriminate. cbn in Ht. apply (inj Some) in Ht as <-.
  destruct x as [n| | | | | | | | | |], y as [n'| | | | | | | | | |]; try done.
  destruct (Nat.eqb_spec n n') as [|Hn]; [by intros ?%elem_of_nil|].
  intros [= -> ->]%elem_of_list_singleton. by eexists (TClass 4), (VAtom n), (VAtom n').
Qed.
