(** More about the reports of instabilities (C49). *)
From Coq Require Import Ascii String NArith.
From stdpp Require Import list.
From Verif.Base Require Import Outcome Compare.
From Verif.Text Require Import Model Spec.
From Verif.Failure Require Import Model Spec Proofs.

Lemma dot_last_split s e : underscore ∉ e -> dot_last (s ++ underscore :: e) = s ++ "."%char :: e.
Proof.
  intros He. unfold dot_last. rewrite reverse_app, reverse_cons, <-app_assoc.
  assert (list_find (fun c => c = underscore) (reverse e ++ [underscore] ++ reverse s) = Some (List.length e, underscore)) as Hf.
  { apply list_find_Some. split; [|split; [done|]].
    - rewrite lookup_app_r by (by rewrite reverse_length). rewrite reverse_length, Nat.sub_diag. done.
    - intros j y Hl Hj ->. rewrite lookup_app_l in Hl by (rewrite reverse_length; done). apply He. apply elem_of_reverse. by eapply elem_of_list_lookup_2. }
  setoid_rewrite Hf. rewrite app_length. cbn [List.length]. replace (List.length s + S (List.length e) - 1 - List.length e) with (List.length s) by lia.
  replace (List.length s + S (List.length e) - List.length e) with (S (List.length s)) by lia. rewrite take_app. f_equal. cbn. f_equal.
  change (underscore :: e) with ([underscore] ++ e). rewrite app_assoc. rewrite drop_app_alt; [done|]. rewrite app_length. cbn. lia.
Qed.
Lemma source_named stem e name k : underscore ∉ e -> source_of (file_of (stem, "."%char :: e, name) k) = stem ++ "."%char :: e.
Proof.
  intros He. rewrite source_of_file. cbn [fst snd]. assert (replace ("."%char :: e) dot [underscore] = underscore :: e) as ->; [|by apply dot_last_split].
  unfold replace, find_from. cbn. done.
Qed.

Definition versus (x : N * text) : text := [nl] ++ list_ascii_of_string "vs." ++ [nl; nl] ++ snd x.
Lemma loop_messages xs : forall x fs ms, (forall i y z, (x :: xs) !! i = Some y -> xs !! i = Some z -> y <> z) ->
  analyse_loop [x] 1 false fs ms (map (fun y => [y]) xs) = Ok (Some (fs ++ repeat 1 (S (List.length xs)), ms ++ concat (map versus xs))).
Proof.
  induction xs as [|y xs IH]; intros x fs ms Hd; cbn [map analyse_loop].
  - cbn. by rewrite app_nil_r.
  - assert (x <> y) as Hxy by exact (Hd 0 x y eq_refl eq_refl). rewrite decide_False by congruence. unfold step_messages. cbn [mismatch].
    rewrite decide_False by done. cbn [rbind]. rewrite IH by (intros i a b Ha Hb; exact (Hd (S i) a b Ha Hb)). f_equal; f_equal; f_equal.
    + cbn [List.length repeat]. by rewrite <-app_assoc.
    + cbn [map concat]. rewrite <-app_assoc. f_equal.
Qed.
Lemma single_messages x y xs : (forall i a b, (x :: y :: xs) !! i = Some a -> (y :: xs) !! i = Some b -> a <> b) ->
  analyse_output (map (fun z => [z]) (x :: y :: xs)) = Ok (Some (repeat 1 (S (S (List.length xs))), snd x ++ concat (map versus (y :: xs)))).
Proof.
  intros Hd. cbn [map analyse_output analyse_loop]. assert (x <> y) as Hxy by exact (Hd 0 x y eq_refl eq_refl). rewrite decide_False by congruence.
  unfold step_messages. cbn [mismatch]. rewrite decide_False by done. cbn [rbind]. rewrite loop_messages by (intros i a b Ha Hb; exact (Hd (S i) a b Ha Hb)).
  do 3 f_equal. cbn [map concat app]. rewrite <-app_assoc. f_equal.
Qed.
