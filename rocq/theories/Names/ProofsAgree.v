(** The compilers agree: names are flat lists of words with separators, and each pass acts on the words or on
    the separators. *)
From Coq Require Import Ascii String.
From stdpp Require Import list.
From Verif.Base Require Import Outcome Order ListLemmas.
From Verif.Text Require Import Model Spec Proofs ProofsCase.
From Verif.Names Require Import Model Spec SpecAgree Proofs ProofsLiterals.
Local Open Scope res_scope.
Local Notation "⌜ s ⌝" := (list_ascii_of_string s%string).
Local Notation length := List.length.

(** ** Words *)
Inductive item := Id (k : keyword) (n : text) | Num (d s : text) | Tru (b : bool).
Inductive sep := Open | Closing (n : nat).

Record flat := Flat { first : item; others : list (sep * item); closers : nat }.

Definition sep_text (cl : nat -> text) (comma : text) (s : sep) : text :=
  match s with Open => ⌜"<"⌝ | Closing k => cl k ++ comma end.
Definition rest_text (w : item -> text) (cl : nat -> text) (comma : text) (l : list (sep * item)) (t : nat) : text :=
  concat (map (fun si => sep_text cl comma si.1 ++ w si.2) l) ++ cl t.
Definition flat_text (w : item -> text) cl comma (x : flat) : text := w (first x) ++ rest_text w cl comma (others x) (closers x).

Fixpoint spaced (k : nat) : text :=
  match k with
  | 0 => []
  | S k' => match k' with 0 => ⌜">"⌝ | _ => ">"%char :: " "%char :: spaced k' end
  end.
Definition tight (k : nat) : text := repeat ">"%char k.

Definition gcc_word (i : item) : text :=
  match i with Id _ n => n | Num d s => d ++ s | Tru b => if b then ⌜"true"⌝ else ⌜"false"⌝ end.
Definition msvc_word (i : item) : text :=
  match i with Id k n => keyword_text k ++ n | Num d _ => d | Tru b => if b then ⌜"1"⌝ else ⌜"0"⌝ end.
Definition common_word (i : item) : text :=
  match i with Id _ n => n | Num d _ => d | Tru b => if b then ⌜"1"⌝ else ⌜"0"⌝ end.

(** ** From types to flat lists *)
Fixpoint join_flat (xs : list flat) : option flat :=
  match xs with
  | [] => None
  | x :: xs' => match join_flat xs' with
                | None => Some x
                | Some y => Some (Flat (first x) (others x ++ (Closing (closers x), first y) :: others y) (closers y))
                end
  end.

Fixpoint flatten (t : ty) : flat :=
  match t with
  | Ty k n args => match join_flat (map flatten args) with
                   | None => Flat (Id k n) [] 0
                   | Some y => Flat (Id k n) ((Open, first y) :: others y) (S (closers y))
                   end
  | Number d s => Flat (Num d s) [] 0
  | Truth b => Flat (Tru b) [] 0
  end.

Section ty_induction.
  Context (P : ty -> Prop).
  Context (HT : forall k n args, Forall P args -> P (Ty k n args)) (HN : forall d s, P (Number d s)) (HB : forall b, P (Truth b)).
  Fixpoint ty_induction (t : ty) : P t :=
    match t with
    | Ty k n args => HT k n args ((fix go l : Forall P l := match l with [] => Forall_nil_2 P | a :: l' => Forall_cons_2 P a l' (ty_induction a) (go l') end) args)
    | Number d s => HN d s
    | Truth b => HB b
    end.
End ty_induction.

Lemma join_flat_None xs : join_flat xs = None <-> xs = [].
Proof. destruct xs; cbn; [done|]. by destruct (join_flat xs). Qed.

Lemma join_flat_text w cl comma xs y : join_flat xs = Some y -> flat_text w cl comma y = join comma (map (flat_text w cl comma) xs).
Proof.
  revert y. induction xs as [|x xs IH]; intros y; [done|]. cbn [join_flat]. destruct (join_flat xs) as [z|] eqn:E.
  - intros [= <-]. destruct xs as [|x' xs]; [done|].
    change (join comma (map (flat_text w cl comma) (x :: x' :: xs))) with
      (flat_text w cl comma x ++ comma ++ join comma (map (flat_text w cl comma) (x' :: xs))).
    rewrite <-(IH z eq_refl). unfold flat_text, rest_text. cbn [first others closers].
    rewrite map_app, concat_app. cbn [map concat fst snd sep_text]. by rewrite <-!app_assoc.
  - intros [= <-]. by apply join_flat_None in E as ->.
Qed.

Lemma tight_S k : tight (S k) = tight k ++ ⌜">"⌝.
Proof. induction k as [|k IH]; [done|]. change (tight (S (S k))) with (">"%char :: tight (S k)). by rewrite IH at 1. Qed.
Lemma spaced_S k : spaced (S k) = spaced k ++ match k with 0 => ⌜">"⌝ | _ => ⌜" >"⌝ end.
Proof.
  induction k as [|k IH]; [done|]. change (spaced (S (S k))) with (">"%char :: " "%char :: spaced (S k)).
  rewrite IH at 1. by destruct k.
Qed.
Lemma spaced_last k : last (spaced k) = match k with 0 => None | _ => Some ">"%char end.
Proof. destruct k; [done|]. rewrite spaced_S. rewrite last_app. by destruct k. Qed.

Lemma flatten_gcc t : gcc_text t = flat_text gcc_word tight ⌜", "⌝ (flatten t).
Proof.
  induction t as [k n args IH|d s|b] using ty_induction; [|cbn; by rewrite app_nil_r|by destruct b].
  cbn [flatten]. destruct (join_flat (map flatten args)) as [y|] eqn:E.
  - assert (args <> []) as Hne by (by intros ->).
    assert (gcc_text (Ty k n args) = n ++ ⌜"<"⌝ ++ join ⌜", "⌝ (map gcc_text args) ++ ⌜">"⌝) as -> by (by destruct args).
    assert (map gcc_text args = map (flat_text gcc_word tight ⌜", "⌝) (map flatten args)) as ->.
    { rewrite map_map. apply map_ext_Forall. done. }
    rewrite <-(join_flat_text _ _ _ _ _ E). unfold flat_text, rest_text. cbn [first others closers map concat fst snd sep_text gcc_word].
    by rewrite tight_S, <-!app_assoc.
  - apply join_flat_None, map_eq_nil in E. subst args. cbn. by rewrite app_nil_r.
Qed.

Definition word_end (i : item) (w : item -> text) : Prop := exists l c, w i = l ++ [c] /\ c <> ">"%char.

Lemma flat_last w comma x : Forall (fun i => word_end i w) (first x :: map snd (others x)) ->
  close (flat_text w spaced comma x) = match closers x with 0 => ⌜">"⌝ | _ => ⌜" >"⌝ end.
Proof.
  intros H. unfold close.
  assert (forall l i, Forall (fun i => word_end i w) (i :: map snd l) ->
    exists k c, w i ++ concat (map (fun si => sep_text spaced comma si.1 ++ w si.2) l) = k ++ [c] /\ c <> ">"%char) as HL.
  { clear. intros l. induction l as [|[s j] l IH]; intros i; cbn [map snd].
    - rewrite Forall_singleton. intros (k&c&->&Hc). exists k, c. cbn. by rewrite app_nil_r.
    - rewrite Forall_cons. intros [_ H]. destruct (IH j H) as (k&c&E&Hc). cbn [map concat fst snd].
      exists (w i ++ sep_text spaced comma s ++ k), c. split; [|done]. rewrite <-!app_assoc. f_equal. f_equal. exact E. }
  destruct (HL _ _ H) as (k&c&E&Hc). unfold flat_text, rest_text. rewrite app_assoc, E.
  rewrite last_app, spaced_last, last_snoc. destruct (closers x); [|by rewrite decide_True].
  rewrite decide_False; [done|]. congruence.
Qed.

Definition all_items (x : flat) : list item := first x :: map snd (others x).

Lemma join_flat_items (P : item -> Prop) xs y : join_flat xs = Some y -> Forall (fun x => Forall P (all_items x)) xs -> Forall P (all_items y).
Proof.
  revert y. induction xs as [|x xs IH]; intros y; [done|]. cbn [join_flat]. rewrite Forall_cons.
  destruct (join_flat xs) as [z|]; intros [= <-] [Hx Hxs]; [|done].
  specialize (IH z eq_refl Hxs). unfold all_items in *. cbn [first others]. rewrite map_app. cbn [map snd].
  rewrite Forall_cons in Hx. rewrite Forall_cons. split; [tauto|]. apply Forall_app. tauto.
Qed.

Definition item_ok (i : item) : Prop :=
  match i with
  | Id _ n => name_ok n
  | Num d s => d <> [] /\ Forall a_digit d /\ Forall a_letter s /\ head s <> Some "x"%char
  | Tru _ => True
  end.

Lemma ty_ok_args k n args : ty_ok (Ty k n args) <-> name_ok n /\ Forall ty_ok args.
Proof.
  cbn [ty_ok]. assert (foldr (fun a P => ty_ok a /\ P) True args <-> Forall ty_ok args) as ->; [|done].
  induction args as [|a args IH]; cbn [foldr]; [done|]. by rewrite Forall_cons, IH.
Qed.

Lemma flatten_items t : ty_ok t -> Forall item_ok (all_items (flatten t)).
Proof.
  induction t as [k n args IH|d s|b] using ty_induction; [|intros H; by apply Forall_singleton|intros H; by apply Forall_singleton].
  rewrite ty_ok_args. intros [Hn Ha]. cbn [flatten]. destruct (join_flat (map flatten args)) as [y|] eqn:E.
  - assert (Forall item_ok (all_items y)) as H.
    { apply (join_flat_items _ _ _ E). rewrite Forall_map. clear E. induction args; [done|].
      rewrite Forall_cons in IH, Ha |- *. naive_solver. }
    unfold all_items in *. cbn [first others map snd]. by apply Forall_cons_2.
  - unfold all_items. cbn. by apply Forall_singleton.
Qed.

Lemma name_char_not_close c : name_char c -> c <> ">"%char.
Proof. intros H ->. destruct H as [[H|H]|[H|H]]; [vm_compute in H; lia..|discriminate H|discriminate H]. Qed.
Lemma digit_not_close c : a_digit c -> c <> ">"%char.
Proof. intros H ->. revert H. apply (bool_decide_unpack _). by vm_compute. Qed.

Lemma Forall_word_end (P : char -> Prop) l : l <> [] -> Forall P l -> exists k c, l = k ++ [c] /\ P c.
Proof.
  intros Hne H. destruct l as [|c l _] using rev_ind; [done|]. exists l, c. split; [done|].
  rewrite Forall_app, Forall_singleton in H. tauto.
Qed.

Lemma msvc_end i : item_ok i -> word_end i msvc_word.
Proof.
  destruct i as [k n|d s|b]; cbn [item_ok msvc_word].
  - intros (Hne&H&_). destruct (Forall_word_end _ _ Hne H) as (l&c&->&Hc). exists (keyword_text k ++ l), c.
    cbn [msvc_word]. rewrite app_assoc. split; [done|]. by apply name_char_not_close.
  - intros (Hne&H&_). destruct (Forall_word_end _ _ Hne H) as (l&c&->&Hc). exists l, c. split; [done|]. by apply digit_not_close.
  - intros _. destruct b; [exists [], "1"%char|exists [], "0"%char]; done.
Qed.
Lemma common_end i : item_ok i -> word_end i common_word.
Proof.
  destruct i as [k n|d s|b]; cbn [item_ok common_word].
  - intros (Hne&H&_). destruct (Forall_word_end _ _ Hne H) as (l&c&->&Hc). exists l, c. split; [done|]. by apply name_char_not_close.
  - intros (Hne&H&_). destruct (Forall_word_end _ _ Hne H) as (l&c&->&Hc). exists l, c. split; [done|]. by apply digit_not_close.
  - intros _. destruct b; [exists [], "1"%char|exists [], "0"%char]; done.
Qed.

Lemma flatten_spaced (txt : ty -> text) (w : item -> text) comma :
  (forall k n, txt (Ty k n []) = w (Id k n)) ->
  (forall k n args, args <> [] -> txt (Ty k n args) = w (Id k n) ++ ⌜"<"⌝ ++ (let inner := join comma (map txt args) in inner ++ close inner)) ->
  (forall d s, txt (Number d s) = w (Num d s)) -> (forall b, txt (Truth b) = w (Tru b)) ->
  (forall i, item_ok i -> word_end i w) ->
  forall t, ty_ok t -> txt t = flat_text w spaced comma (flatten t).
Proof.
  intros H0 H1 HN HB HE t. induction t as [k n args IH|d s|b] using ty_induction.
  - intros Hok. pose proof (proj1 (ty_ok_args k n args) Hok) as [Hn Ha].
    cbn [flatten]. destruct (join_flat (map flatten args)) as [y|] eqn:E.
    + assert (args <> []) as Hne by (by intros ->). rewrite H1 by done. cbv zeta.
      assert (map txt args = map (flat_text w spaced comma) (map flatten args)) as ->.
      { rewrite map_map. apply map_ext_Forall. clear E Hne Hok. induction args; [done|]. rewrite Forall_cons in IH, Ha |- *. naive_solver. }
      rewrite <-(join_flat_text _ _ _ _ _ E). rewrite flat_last.
      * unfold flat_text, rest_text. cbn [first others closers map concat fst snd sep_text].
        by rewrite spaced_S, <-!app_assoc.
      * eapply Forall_impl; [|exact HE]. apply (join_flat_items _ _ _ E). rewrite Forall_map.
        eapply Forall_impl; [exact Ha|]. intros a. apply flatten_items.
    + apply join_flat_None, map_eq_nil in E. subst args. rewrite H0. unfold flat_text, rest_text. cbn. by rewrite app_nil_r.
  - intros _. rewrite HN. unfold flat_text, rest_text. cbn. by rewrite app_nil_r.
  - intros _. rewrite HB. unfold flat_text, rest_text. cbn. by rewrite app_nil_r.
Qed.

Lemma flatten_msvc t : ty_ok t -> msvc_text t = flat_text msvc_word spaced ⌜","⌝ (flatten t).
Proof.
  apply flatten_spaced; [done| |done|done|apply msvc_end]. intros k n args Hne. destruct args; [done|].
  cbn [msvc_text msvc_word]. by rewrite <-app_assoc.
Qed.
Lemma flatten_common t : ty_ok t -> common_text t = flat_text common_word spaced ⌜", "⌝ (flatten t).
Proof. apply flatten_spaced; [done| |done|done|apply common_end]. intros k n args Hne. by destruct args. Qed.

(** Only names of types are followed by an opening bracket; anything but these is followed by something. *)
Definition is_id (i : item) : Prop := match i with Id _ _ => True | _ => False end.
Fixpoint flat_ok (i : item) (l : list (sep * item)) (t : nat) : Prop :=
  match l with
  | [] => is_id i \/ 0 < t
  | (s, j) :: l' => (s = Open -> is_id i) /\ flat_ok j l' t
  end.

Lemma flat_ok_app l : forall i t k j l' t', flat_ok i l (S t) -> flat_ok j l' t' -> flat_ok i (l ++ (Closing k, j) :: l') t'.
Proof.
  induction l as [|[s x] l IH]; intros i t k j l' t' H H'; cbn [app flat_ok] in *; [split; [done|done]|].
  destruct H as [H1 H2]. split; [done|]. by apply (IH x t).
Qed.

Lemma flat_ok_S l : forall i t t', flat_ok i l (S t) -> flat_ok i l (S t').
Proof. induction l as [|[s x] l IH]; intros i t t'; cbn [flat_ok]; [intros _; right; lia|]. intros [H1 H2]. split; [done|]. by apply (IH x t). Qed.

Lemma join_flat_ok xs y : join_flat xs = Some y -> Forall (fun x => flat_ok (first x) (others x) (S (closers x))) xs ->
  flat_ok (first y) (others y) (S (closers y)).
Proof.
  revert y. induction xs as [|x xs IH]; intros y; [done|]. cbn [join_flat]. rewrite Forall_cons.
  destruct (join_flat xs) as [z|]; intros [= <-] [Hx Hxs]; [|done]. cbn [first others closers].
  apply (flat_ok_app _ _ (closers x)); [done|]. by apply IH.
Qed.

Lemma flatten_flat_ok t : flat_ok (first (flatten t)) (others (flatten t)) (S (closers (flatten t))).
Proof.
  induction t as [k n args IH|d s|b] using ty_induction; [|right; cbn; lia|right; cbn; lia].
  cbn [flatten]. destruct (join_flat (map flatten args)) as [y|] eqn:E; [|left; done].
  cbn [first others closers flat_ok]. split; [done|]. apply (flat_ok_S _ _ (closers y)). apply (join_flat_ok _ _ E).
  by rewrite Forall_map.
Qed.

Lemma flatten_top t : is_type t -> is_id (first (flatten t)) /\ flat_ok (first (flatten t)) (others (flatten t)) (closers (flatten t)) /\
  (match others (flatten t) with [] => closers (flatten t) = 0 | (s, _) :: _ => s = Open /\ 0 < closers (flatten t) end).
Proof.
  destruct t as [k n args|d s|b]; [|done..]. intros _. pose proof (flatten_flat_ok (Ty k n args)) as H. cbn [flatten] in *.
  destruct (join_flat (map flatten args)) as [y|] eqn:E; cbn [first others closers] in *.
  - split; [done|]. split; [|split; [done|lia]]. cbn [flat_ok] in *. split; [done|]. destruct H as [_ H]. by apply (flat_ok_S _ _ (S (closers y))).
  - split; [done|]. split; [by left|done].
Qed.
