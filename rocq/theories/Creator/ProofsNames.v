(** Proofs about names, template parameters and passing by reference. *)
From Coq Require Import Ascii String.
From stdpp Require Import list.
From Verif.Base Require Import Outcome ListLemmas.
From Verif.Text Require Import Model Spec Proofs.
From Verif.Edit Require Model Proofs.
From Verif.Creator Require Import Model Spec ProofsFiles ProofsTexts ProofsClass.
From Verif.Text Require ProofsCase.
Local Open Scope res_scope.
Local Notation "⌜ s ⌝" := (list_ascii_of_string s%string).
Local Notation length := List.length.
Local Notation find_last := Edit.Model.find_last.

(** ** Searching for characters *)

Lemma find_last_char c a b : c ∉ b -> find_last [c] (a ++ c :: b) = Some (length a).
Proof.
  intros Hb. apply find_last_Some; [by exists a, b|]. intros j Hj%occurs_at_char.
  destruct (decide (j <= length a)) as [|Hj']; [done|]. exfalso. apply Hb. rewrite lookup_app_r in Hj by lia.
  apply elem_of_list_lookup. exists (j - length a - 1). replace (j - length a) with (S (j - length a - 1)) in Hj by lia. exact Hj.
Qed.
Lemma find_last_no_char c l : c ∉ l -> find_last [c] l = None.
Proof. intros H. apply find_last_None. intros H'%occurs_char. done. Qed.
Lemma find_first_char c a b : c ∉ a -> find_first [c] (a ++ c :: b) = Some (length a).
Proof. intros H. apply find_first_Some. by apply (first_at_char c a b). Qed.
Lemma find_first_no_char c l : c ∉ l -> find_first [c] l = None.
Proof. intros H. apply find_first_None. intros H'%occurs_char. done. Qed.

Lemma last_not_of_all cs b : Forall (fun c => c ∈ cs) b -> last_not_of cs b = None.
Proof. induction 1 as [|c b Hc Hb IH]; [done|]. cbn. rewrite IH. by rewrite decide_True. Qed.
Lemma last_not_of_app cs a c b : c ∉ cs -> Forall (fun c => c ∈ cs) b -> last_not_of cs (a ++ c :: b) = Some (length a).
Proof.
  intros Hc Hb. induction a as [|x a IH]; cbn.
  - by rewrite (last_not_of_all cs b Hb), decide_False.
  - by rewrite IH.
Qed.
Lemma first_not_of_app cs a c b : c ∉ cs -> Forall (fun c => c ∈ cs) a -> first_not_of cs (a ++ c :: b) = Some (length a).
Proof. intros Hc Ha. induction Ha as [|x a Hx Ha IH]; cbn; [by rewrite decide_False|]. by rewrite decide_True, IH. Qed.
Lemma first_not_of_all cs a : Forall (fun c => c ∈ cs) a -> first_not_of cs a = None.
Proof. induction 1 as [|x a Hx Ha IH]; [done|]. cbn. by rewrite decide_True, IH. Qed.

(** ** Passing by value *)

Lemma handle_blank n : handle_as_ref (replicate n blank) = Throw LogicError.
Proof. unfold handle_as_ref. rewrite first_not_of_all; [done|]. apply Forall_replicate. left. Qed.

Lemma among_sound w ts : blank ∉ w -> among_fun_types w ts = Some false -> w ∈ ts.
Proof.
  intros Hb. induction ts as [|t ts IH]; [done|]. cbn [among_fun_types]. destruct (find_first t w) as [i|] eqn:E; [|intros H; right; by apply IH].
  apply find_first_Some in E as [(pre & post & Ew & _) _]. assert (length w = length pre + length t + length post) as El by (rewrite Ew, !app_length; lia).
  destruct (decide (length w = length t)) as [Ht|Ht].
  - intros _. destruct pre; [|cbn in El; lia]. destruct post; [|cbn in El; lia]. rewrite app_nil_r in Ew. cbn in Ew. rewrite Ew. left.
  - rewrite (proj2 (Nat.ltb_lt _ _)) by lia. destruct (w !! length t) as [c|] eqn:Ec.
    + cbn. intros [= H]. apply negb_false_iff, bool_decide_eq_true in H as ->. by apply elem_of_list_lookup_2 in Ec.
    + apply lookup_ge_None in Ec. lia.
Qed.

Definition among_last (type : text) : bool := bool_decide (last type = Some "*"%char) || bool_decide (last type = Some "&"%char).
Lemma handle_word type w : first_word type w ->
  handle_as_ref type = Ok (if among_last type then false
    else match among_fun_types w fun_types with Some b => b | None => negb (bool_decide (type ∈ other_types)) end).
Proof.
  intros (n & post & -> & Hb & Hne & Hp).
  assert (first_not_of [blank] (replicate n blank ++ w ++ post) = Some (length (replicate n blank))) as E1.
  { destruct w as [|c w]; [done|]. apply first_not_of_app; [|apply Forall_replicate; left].
    intros H%elem_of_list_singleton. apply Hb. rewrite H. left. }
  assert (find_from (replicate n blank ++ w ++ post) [blank] (length (replicate n blank))
          = match post with [] => None | _ => Some (length (replicate n blank) + length w) end) as E2.
  { rewrite find_from_app. destruct post as [|p post].
    - rewrite app_nil_r. by rewrite find_first_no_char.
    - destruct Hp as [Hp|Hp]; [done|]. cbn in Hp. injection Hp as ->. by rewrite find_first_char. }
  unfold handle_as_ref. rewrite E1, E2. unfold among_last. destruct (bool_decide _ || bool_decide _); [done|].
  assert ((match (match post with [] => None | _ => Some (length (replicate n blank) + length w) end) with
          | Some e => take (e - length (replicate n blank)) (drop (length (replicate n blank)) (replicate n blank ++ w ++ post))
          | None => drop (length (replicate n blank)) (replicate n blank ++ w ++ post)
          end) = w) as ->.
  { rewrite drop_app. destruct post as [|p post]; [by rewrite app_nil_r|].
    replace (length (replicate n blank) + length w - length (replicate n blank)) with (length w) by lia. by rewrite take_app. }
  by destruct (among_fun_types w fun_types).
Qed.

Lemma by_value_among w : w ∈ by_value_words -> among_fun_types w fun_types = Some false.
Proof.
  assert (Forall (fun w => among_fun_types w fun_types = Some false) by_value_words) as H; [|rewrite Forall_forall in H; apply H].
  unfold by_value_words. repeat (apply Forall_cons; split; [by vm_compute|]). by apply Forall_nil.
Qed.
Lemma among_by_value w : blank ∉ w -> among_fun_types w fun_types = Some false -> w ∈ by_value_words.
Proof.
  intros Hb H. pose proof (among_sound w fun_types Hb H) as Hin. unfold fun_types in Hin. unfold by_value_words. rewrite !elem_of_cons in *.
  destruct_or! Hin; try tauto. subst w. vm_compute in H. done.
Qed.

Lemma other_types_words type w : first_word type w -> type ∈ other_types -> w = type.
Proof.
  intros (n & post & -> & Hb & Hne & Hp) Ht.
  assert (Forall (fun t => blank ∉ t) other_types) as H.
  { unfold other_types. repeat (apply Forall_cons; split; [apply (bool_decide_unpack _); by vm_compute|]). by apply Forall_nil. }
  rewrite Forall_forall in H. specialize (H _ Ht). destruct n; [|destruct H; left]. cbn in *. destruct post as [|p post]; [by rewrite app_nil_r|].
  destruct Hp as [Hp|Hp]; [done|]. cbn in Hp. injection Hp as ->. destruct H. apply elem_of_app. right. left.
Qed.

Lemma handle_spec type w : first_word type w -> exists b, handle_as_ref type = Ok b /\
  (b = false <-> last type = Some "*"%char \/ last type = Some "&"%char \/ w ∈ by_value_words \/ type = ⌜"std::size_t"⌝ \/ type = ⌜"size_t"⌝).
Proof.
  intros Hw. rewrite (handle_word type w Hw). eexists. split; [reflexivity|]. unfold among_last.
  destruct (decide (last type = Some "*"%char)) as [H1|H1]; [rewrite (bool_decide_eq_true_2 _ H1); cbn; tauto|].
  destruct (decide (last type = Some "&"%char)) as [H2|H2]; [rewrite (bool_decide_eq_true_2 _ H2), orb_true_r; tauto|].
  rewrite (bool_decide_eq_false_2 _ H1), (bool_decide_eq_false_2 _ H2). cbn [orb].
  assert (blank ∉ w) as Hb by (by destruct Hw as (? & ? & ? & ? & ?)).
  destruct (decide (type ∈ other_types)) as [Ho|Ho].
  - pose proof (other_types_words type w Hw Ho) as ->. rewrite (bool_decide_eq_true_2 _ Ho). clear Hw Hb H1 H2.
    unfold other_types in Ho. rewrite !elem_of_cons in Ho.
    destruct_or! Ho; try subst type; [..|by apply not_elem_of_nil in Ho];
      (split; [first [intros _; tauto|vm_compute; discriminate]|intros H; first [by vm_compute|exfalso; revert H; apply (bool_decide_unpack _); by vm_compute]]).
  - rewrite (bool_decide_eq_false_2 _ Ho). split.
    + destruct (among_fun_types w fun_types) as [[]|] eqn:E; [done| |done]. intros _. right. right. left. by apply among_by_value.
    + intros [?|[?|[Hv|Hs]]]; [done|done| |].
      * by rewrite (by_value_among w Hv).
      * exfalso. apply Ho. unfold other_types. rewrite !elem_of_cons. tauto.
Qed.

(** ** One template parameter *)

Lemma take_app_of {A} (a b : list A) n : n = length a -> take n (a ++ b) = a.
Proof. intros ->. apply take_app. Qed.
Lemma drop_app_of {A} (a b : list A) n : n = length a -> drop n (a ++ b) = b.
Proof. intros ->. apply drop_app. Qed.
Lemma replicate_end {A} n (x : A) : replicate (S n) x = replicate n x ++ [x].
Proof. by rewrite replicate_S_end. Qed.

Lemma spec_ending A' a n s' c trail :
  a <> blank -> blank ∉ s' -> c ∉ ⌜" ."⌝ -> Forall (fun x => x ∈ ⌜" ."⌝) trail ->
  let str := A' ++ a :: replicate (S n) blank ++ s' ++ c :: trail in
  generate_spec str =
    let pos := find_last [blank] A' in
    let first :=
      match pos with
      | Some p => if bool_decide (str !! (p + 1) = Some "."%char) then find_last [blank] (take p str) else pos
      | None => None
      end in
    let p := match first with None => 0 | Some q => q + 1 end in
    Ok (Spec (drop p (A' ++ [a])) (s' ++ [c])).
Proof.
  intros Ha Hs Hc Ht str. unfold generate_spec.
  assert (str = (A' ++ a :: replicate (S n) blank ++ s') ++ c :: trail) as Es.
  { unfold str. rewrite <- app_assoc. cbn [app]. by rewrite <- app_assoc. }
  assert (last_not_of ⌜" ."⌝ str = Some (length (A' ++ a :: replicate (S n) blank ++ s'))) as ->.
  { rewrite Es. by apply last_not_of_app. }
  rewrite Es at 1. rewrite take_app.
  replace (A' ++ a :: replicate (S n) blank ++ s') with ((A' ++ a :: replicate n blank) ++ blank :: s') at 1
    by (rewrite <- app_assoc; cbn [app]; rewrite replicate_end, <- app_assoc; done).
  rewrite find_last_char by done.
  replace (length (A' ++ a :: replicate (S n) blank ++ s')) with (length A' + 2 + n + length s')
    by (rewrite app_length; cbn [length]; rewrite app_length, replicate_length; lia).
  replace (length (A' ++ a :: replicate n blank)) with (length A' + 1 + n)
    by (rewrite app_length; cbn [length]; rewrite replicate_length; lia).
  assert (take (length A' + 2 + n + length s' + 1 - (length A' + 2 + n + length s' - (length A' + 1 + n))) str
          = A' ++ a :: replicate (S n) blank) as ->.
  { unfold str. replace (A' ++ a :: replicate (S n) blank ++ s' ++ c :: trail) with ((A' ++ a :: replicate (S n) blank) ++ s' ++ c :: trail)
      by (by rewrite <- app_assoc).
    apply take_app_of. rewrite app_length. cbn [length]. rewrite replicate_length. lia. }
  rewrite last_not_of_app; [|by intros H%elem_of_list_singleton|apply Forall_replicate; left].
  assert (take (length A') str = A') as -> by (unfold str; by apply take_app).
  cbv zeta. set (p := match _ with None => 0 | Some q => q + 1 end).
  assert (p <= length A') as Hp.
  { unfold p. destruct (find_last [blank] A') as [i|] eqn:E; [|lia].
    assert (i < length A') as Hi.
    { pose proof (Edit.Proofs.find_last_spec [blank] A') as Hf. rewrite E in Hf. destruct Hf as [Ho _].
      apply occurs_at_char in Ho. by apply lookup_lt_Some in Ho. }
    destruct (bool_decide _); [|lia]. destruct (find_last [blank] (take i str)) as [j|] eqn:E'; [|lia].
    pose proof (Edit.Proofs.find_last_spec [blank] (take i str)) as Hf. rewrite E' in Hf. destruct Hf as [Ho _].
    apply occurs_at_char in Ho. apply lookup_lt_Some in Ho. rewrite take_length in Ho. lia. }
  do 2 f_equal.
  - replace str with ((A' ++ [a]) ++ replicate (S n) blank ++ s' ++ c :: trail) by (unfold str; by rewrite <- app_assoc).
    rewrite drop_app_le by (rewrite app_length; cbn [length]; lia).
    apply take_app_of. rewrite drop_length, app_length. cbn [length]. lia.
  - replace str with ((A' ++ a :: replicate (S n) blank) ++ (s' ++ [c]) ++ trail).
    2:{ unfold str. rewrite <- !app_assoc. by cbn [app]; rewrite <- ?app_assoc. }
    rewrite drop_app_of by (rewrite app_length; cbn [length]; rewrite replicate_length; lia).
    apply take_app_of. rewrite app_length. cbn [length]. lia.
Qed.

Lemma lookup_app_middle {A} (a : list A) x b n : n = length a -> (a ++ x :: b) !! n = Some x.
Proof. intros ->. by apply list_lookup_middle. Qed.

Lemma find_last_pre pre b : blank ∉ b -> pre = [] \/ last pre = Some blank ->
  find_last [blank] (pre ++ b) = match pre with [] => None | _ => Some (length pre - 1) end.
Proof.
  intros Hb [-> | H]; [by apply find_last_no_char|]. apply last_Some in H as [q ->]. rewrite <- app_assoc. cbn [app].
  rewrite find_last_char by done. destruct (q ++ [blank]) eqn:E; [by destruct q|]. rewrite <- E, app_length. cbn [length]. f_equal. lia.
Qed.

Lemma spec_plain pre sp n sym trail :
  (pre = [] \/ last pre = Some blank) -> sp <> [] -> blank ∉ sp -> (pre = [] \/ head sp <> Some "."%char) ->
  sym <> [] -> blank ∉ sym -> last sym <> Some "."%char -> Forall (fun x => x ∈ ⌜" ."⌝) trail ->
  generate_spec (pre ++ sp ++ replicate (S n) blank ++ sym ++ trail) = Ok (Spec sp sym).
Proof.
  intros Hpre Hsp Hspb Hdot Hsym Hsymb Hlast Ht.
  destruct (exists_last Hsp) as (sp' & a & ->). destruct (exists_last Hsym) as (s' & c & ->).
  rewrite last_snoc in Hlast.
  assert (a <> blank /\ blank ∉ sp') as [Ha Hsp'].
  { split; [intros ->|intros H]; apply Hspb, elem_of_app; [right; left|by left]. }
  assert (c <> blank /\ blank ∉ s') as [Hc Hs'].
  { split; [intros ->|intros H]; apply Hsymb, elem_of_app; [right; left|by left]. }
  assert (c ∉ ⌜" ."⌝) as Hc'.
  { cbn. rewrite !elem_of_cons, elem_of_nil. intros [?|[?|[]]]; [done|]. apply Hlast. by f_equal. }
  pose proof (spec_ending (pre ++ sp') a n s' c trail Ha Hs' Hc' Ht) as H. cbv zeta in H.
  replace (pre ++ (sp' ++ [a]) ++ replicate (S n) blank ++ (s' ++ [c]) ++ trail)
    with ((pre ++ sp') ++ a :: replicate (S n) blank ++ s' ++ c :: trail) by (rewrite <- !app_assoc; done).
  rewrite H, (find_last_pre pre sp' Hsp' Hpre). clear H. do 2 f_equal.
  destruct pre as [|x pre]; [done|]. destruct Hdot as [Hdot|Hdot]; [done|]. set (P := x :: pre) in *.
  assert (1 <= length P) by (cbn; lia).
  rewrite bool_decide_eq_false_2.
  2:{ replace (length P - 1 + 1) with (length P) by lia. rewrite <- app_assoc, lookup_app_r, Nat.sub_diag by lia.
      destruct sp'; cbn in Hdot |- *; done. }
  replace (length P - 1 + 1) with (length P) by lia. rewrite <- app_assoc. by rewrite drop_app.
Qed.

Lemma spec_dots pre w dots n sym trail :
  (pre = [] \/ last pre = Some blank) -> blank ∉ w -> blank ∉ dots ->
  sym <> [] -> blank ∉ sym -> last sym <> Some "."%char -> Forall (fun x => x ∈ ⌜" ."⌝) trail ->
  generate_spec (pre ++ (w ++ [blank] ++ "."%char :: dots) ++ replicate (S n) blank ++ sym ++ trail)
  = Ok (Spec (w ++ [blank] ++ "."%char :: dots) sym).
Proof.
  intros Hpre Hw Hd Hsym Hsymb Hlast Ht.
  assert (exists d' a, "."%char :: dots = d' ++ [a] /\ a <> blank /\ blank ∉ d') as (d' & a & Ed & Ha & Hd').
  { assert (blank ∉ "."%char :: dots) as Hb by (rewrite elem_of_cons; intros [?|?]; done).
    destruct (exists_last (l := "."%char :: dots)) as (d' & a & E); [done|]. exists d', a. rewrite E in Hb.
    split_and!; [done|intros ->|intros H]; apply Hb, elem_of_app; [right; left|by left]. }
  destruct (exists_last Hsym) as (s' & c & ->). rewrite last_snoc in Hlast.
  assert (c <> blank /\ blank ∉ s') as [Hc Hs'].
  { split; [intros ->|intros H]; apply Hsymb, elem_of_app; [right; left|by left]. }
  assert (c ∉ ⌜" ."⌝) as Hc'.
  { cbn. rewrite !elem_of_cons, elem_of_nil. intros [?|[?|[]]]; [done|]. apply Hlast. by f_equal. }
  pose proof (spec_ending (pre ++ w ++ blank :: d') a n s' c trail Ha Hs' Hc' Ht) as H. cbv zeta in H.
  replace (pre ++ (w ++ [blank] ++ "."%char :: dots) ++ replicate (S n) blank ++ (s' ++ [c]) ++ trail)
    with ((pre ++ w ++ blank :: d') ++ a :: replicate (S n) blank ++ s' ++ c :: trail).
  2:{ rewrite Ed, <- !app_assoc. cbn [app]. done. }
  rewrite H. clear H. do 2 f_equal.
  rewrite (app_assoc pre w (blank :: d')), find_last_char by done.
  rewrite bool_decide_eq_true_2.
  2:{ replace (((pre ++ w) ++ blank :: d') ++ a :: replicate (S n) blank ++ s' ++ c :: trail)
        with (((pre ++ w) ++ [blank]) ++ (d' ++ [a]) ++ replicate (S n) blank ++ s' ++ c :: trail) by (rewrite <- !app_assoc; done).
      rewrite <- Ed. apply list_lookup_middle. rewrite !app_length. cbn [length]. lia. }
  rewrite <- (app_assoc (pre ++ w)), take_app, (find_last_pre pre w Hw Hpre).
  assert (match (match pre with [] => None | _ => Some (length pre - 1) end) with None => 0 | Some q => q + 1 end = length pre) as ->.
  { destruct pre; cbn; lia. }
  rewrite <- !app_assoc, drop_app. rewrite Ed. done.
Qed.

Lemma spec_word n sym trail : sym <> [] -> blank ∉ sym -> last sym <> Some "."%char -> Forall (fun x => x ∈ ⌜" ."⌝) trail ->
  generate_spec (replicate n blank ++ sym ++ trail) = Throw RuntimeError.
Proof.
  intros Hsym Hb Hlast Ht. destruct (exists_last Hsym) as (s' & c & ->). rewrite last_snoc in Hlast.
  assert (c <> blank /\ blank ∉ s') as [Hc Hs'].
  { split; [intros ->|intros H]; apply Hb, elem_of_app; [right; left|by left]. }
  assert (c ∉ ⌜" ."⌝) as Hc'.
  { cbn. rewrite !elem_of_cons, elem_of_nil. intros [?|[?|[]]]; [done|]. apply Hlast. by f_equal. }
  unfold generate_spec. rewrite <- app_assoc, app_assoc. cbn [app].
  rewrite (last_not_of_app _ (replicate n blank ++ s') c trail Hc' Ht), take_app.
  destruct n as [|n]; [by rewrite find_last_no_char|].
  rewrite replicate_end, <- app_assoc. cbn [app]. rewrite find_last_char by done.
  replace (length (replicate n blank ++ blank :: s') + 1 - (length (replicate n blank ++ blank :: s') - length (replicate n blank)))
    with (S n) by (rewrite app_length; cbn [length]; rewrite replicate_length; lia).
  replace ((replicate n blank ++ blank :: s') ++ c :: trail) with (replicate (S n) blank ++ s' ++ c :: trail)
    by (rewrite replicate_end, <- !app_assoc; done).
  rewrite take_app_of by (by rewrite replicate_length). rewrite last_not_of_all; [done|]. apply Forall_replicate. left.
Qed.

Lemma spec_none str : Forall (fun x => x ∈ ⌜" ."⌝) str -> generate_spec str = Ok (Spec [] []).
Proof. intros H. unfold generate_spec. by rewrite last_not_of_all. Qed.

(** ** All the template parameters *)

Lemma data_loop_ok segs : segs <> [] -> Forall (fun s => ","%char ∉ s) segs -> forall post, ","%char ∉ post -> forall P fuel acc, length segs <= fuel ->
  data_loop fuel (P ++ join [","%char] segs ++ ">"%char :: post) (length (P ++ join [","%char] segs)) (length P) acc
  = let? ds := specs_of generate_spec segs in Ok (acc ++ ds).
Proof.
  intros Hne Hs post Hp. induction segs as [|s segs IH]; [done|]. intros P fuel acc Hf. destruct fuel as [|fuel]; [cbn in Hf; lia|].
  apply Forall_cons in Hs as [Hs Hss]. cbn [data_loop]. rewrite find_from_app. destruct segs as [|s2 segs].
  - cbn [join specs_of]. rewrite find_first_no_char by (rewrite elem_of_app, elem_of_cons; intros [?|[?|?]]; done). cbn [option_map fmap option_fmap].
    rewrite (proj2 (Nat.ltb_ge _ _)) by (rewrite app_length; lia). rewrite drop_app, take_app_of by (rewrite app_length; lia).
    destruct (generate_spec s); done.
  - remember (s2 :: segs) as segs' eqn:E. assert (join [","%char] (s :: segs') = s ++ ","%char :: join [","%char] segs') as -> by (by rewrite E).
    rewrite <- !app_assoc. cbn [app]. rewrite find_first_char by done. cbn [option_map fmap option_fmap].
    rewrite drop_app, take_app_of by lia.
    specialize (IH ltac:(by rewrite E) Hss (P ++ s ++ [","%char]) fuel). cbn [specs_of].
    destruct (generate_spec s) as [d| | |]; [|done..]. cbn [rbind].
    specialize (IH (acc ++ [d]) ltac:(cbn [length] in Hf; lia)).
    replace (P ++ s ++ ","%char :: join [","%char] segs' ++ ">"%char :: post)
      with ((P ++ s ++ [","%char]) ++ join [","%char] segs' ++ ">"%char :: post) by (rewrite <- !app_assoc; done).
    replace (P ++ s ++ ","%char :: join [","%char] segs') with ((P ++ s ++ [","%char]) ++ join [","%char] segs') by (rewrite <- !app_assoc; done).
    replace (length P + length s + 1) with (length (P ++ s ++ [","%char])) by (rewrite !app_length; cbn [length]; lia).
    rewrite IH. destruct (specs_of generate_spec segs') as [ds| | |]; [|done..]. cbn [rbind]. by rewrite <- app_assoc.
Qed.

Lemma join_length sep ws : sep <> [] -> length ws <= S (length (join sep ws)).
Proof.
  intros Hs. induction ws as [|w ws IH]; [cbn; lia|]. destruct ws as [|w2 ws]; [cbn; lia|].
  remember (w2 :: ws) as ws' eqn:E. assert (join sep (w :: ws') = w ++ sep ++ join sep ws') as -> by (by rewrite E).
  rewrite !app_length. destruct sep; [done|]. cbn [length]. lia.
Qed.

Lemma data_ok pre segs post : "<"%char ∉ pre -> segs <> [] -> Forall (fun s => ","%char ∉ s) segs -> lacks ⌜",>"⌝ post ->
  generate_data (pre ++ "<"%char :: join [","%char] segs ++ ">"%char :: post) = specs_of generate_spec segs.
Proof.
  intros Hpre Hne Hs Hpost. unfold generate_data. rewrite find_first_char by done.
  assert (">"%char ∉ post) as Hgt by (apply (lacks_ok ⌜",>"⌝); [right; left|done]).
  assert (","%char ∉ post) as Hco by (apply (lacks_ok ⌜",>"⌝); [left|done]).
  replace (pre ++ "<"%char :: join [","%char] segs ++ ">"%char :: post)
    with ((pre ++ ["<"%char]) ++ join [","%char] segs ++ ">"%char :: post) by (rewrite <- !app_assoc; done).
  assert (find_last [">"%char] ((pre ++ ["<"%char]) ++ join [","%char] segs ++ ">"%char :: post)
          = Some (length ((pre ++ ["<"%char]) ++ join [","%char] segs))) as ->.
  { rewrite app_assoc. by apply find_last_char. }
  rewrite (proj2 (Nat.ltb_ge _ _)) by (rewrite !app_length; lia).
  replace (length pre + 1) with (length (pre ++ ["<"%char])) by (by rewrite app_length).
  rewrite data_loop_ok; [|done..|].
  - by destruct (specs_of generate_spec segs).
  - pose proof (join_length [","%char] segs ltac:(done)). rewrite !app_length. cbn [length]. lia.
Qed.

Lemma data_none l : "<"%char ∉ l -> generate_data l = Ok [].
Proof. intros H. unfold generate_data. by rewrite find_first_no_char. Qed.
Lemma data_open pre post : "<"%char ∉ pre -> ">"%char ∉ post -> generate_data (pre ++ "<"%char :: post) = Throw RuntimeError.
Proof.
  intros Hpre Hpost. unfold generate_data. rewrite find_first_char by done.
  pose proof (Edit.Proofs.find_last_spec [">"%char] (pre ++ "<"%char :: post)) as H.
  destruct (find_last _ _) as [i|]; [|done]. destruct H as [H _]. apply occurs_at_char in H.
  rewrite (proj2 (Nat.ltb_lt _ _)); [done|]. destruct (decide (i < length pre)) as [|Hi]; [done|]. exfalso.
  rewrite lookup_app_r in H by lia. destruct (i - length pre) as [|k]; cbn in H; [done|]. by apply elem_of_list_lookup_2 in H.
Qed.

(** ** Writing template parameters *)

Lemma concat_join sep ws : ws <> [] -> concat (map (fun w => w ++ sep) ws) = join sep ws ++ sep.
Proof.
  induction ws as [|w ws IH]; [done|]. intros _. destruct ws as [|w2 ws]; [cbn; by rewrite app_nil_r|].
  remember (w2 :: ws) as ws' eqn:E. assert (join sep (w :: ws') = w ++ sep ++ join sep ws') as -> by (by rewrite E).
  cbn [map concat]. rewrite IH by (by rewrite E). by rewrite <- !app_assoc.
Qed.

Lemma data_text_join ds : ds <> [] -> data_text ds = parameter_list ds.
Proof.
  intros H. unfold data_text, parameter_list. destruct ds as [|d ds]; [done|].
  assert (concat (map spec_text (d :: ds)) = join ⌜", "⌝ (map (fun d => species d ++ [blank] ++ symbol d) (d :: ds)) ++ ⌜", "⌝) as ->.
  { rewrite <- concat_join by done. rewrite map_map. f_equal. apply map_ext. intros x. unfold spec_text. by rewrite <- !app_assoc. }
  rewrite (app_assoc ["<"%char]), take_app_of by (rewrite !app_length; cbn [length list_ascii_of_string]; lia). by rewrite <- app_assoc.
Qed.

Lemma arguments_text_join ds : ds <> [] -> arguments_text ds = argument_list ds.
Proof.
  intros H. unfold arguments_text, argument_list.
  match goal with |- context [concat ?m] =>
    assert (concat m = join ⌜", "⌝ (map (fun d => symbol d ++ if is_pack d then ⌜"..."⌝ else []) ds) ++ ⌜", "⌝) as -> end.
  { rewrite <- concat_join by (by destruct ds). rewrite map_map. f_equal. apply map_ext. intros x. by rewrite <- !app_assoc. }
  rewrite (app_assoc ["<"%char]), take_app_of by (rewrite !app_length; cbn [length list_ascii_of_string]; lia). by rewrite <- app_assoc.
Qed.

Lemma join_blank w ws : join ⌜", "⌝ (w :: ws) = join [","%char] (w :: map (cons blank) ws).
Proof.
  revert w. induction ws as [|w2 ws IH]; intros w; [done|].
  change (w ++ ⌜", "⌝ ++ join ⌜", "⌝ (w2 :: ws) = w ++ [","%char] ++ join [","%char] ((blank :: w2) :: map (cons blank) ws)).
  rewrite (IH w2). f_equal. cbn [app list_ascii_of_string]. f_equal. fold blank.
  destruct ws; done.
Qed.

Lemma token_parts l : token l -> l <> [] /\ blank ∉ l /\ ","%char ∉ l /\ "<"%char ∉ l /\ ">"%char ∉ l.
Proof.
  intros [H1 H2]. split; [done|]. split_and!; apply (lacks_ok ⌜" ,<>"⌝); try done; cbn; rewrite !elem_of_cons; tauto.
Qed.

Lemma proper_read pre d : pre = [] \/ last pre = Some blank -> proper d ->
  generate_spec (pre ++ species d ++ [blank] ++ symbol d) = Ok d.
Proof.
  intros Hpre ((S1 & S2 & _)%token_parts & S3 & H). destruct d as [sp sym]. cbn [species symbol] in *.
  destruct H as [[(T1 & T2 & _)%token_parts T3]|(w & dots & -> & (T1 & T2 & _)%token_parts & (U1 & U2 & _)%token_parts)].
  - pose proof (spec_plain pre sp 0 sym [] Hpre T1 T2 (or_intror T3) S1 S2 S3 (List.Forall_nil _)) as H. by rewrite app_nil_r in H.
  - pose proof (spec_dots pre w dots 0 sym [] Hpre T2) as H. rewrite app_nil_r in H. apply H; [|done..]. intros Hd. apply U2. by right.
Qed.

Lemma proper_clean d c : proper d -> c ∈ ⌜",<>"⌝ -> c ∉ species d ++ [blank] ++ symbol d.
Proof.
  intros (S & _ & H) Hc. destruct d as [sp sym]. cbn [species symbol] in *.
  assert (forall l, token l -> c ∉ l) as Ht.
  { intros l [_ Hl]. apply (lacks_ok ⌜" ,<>"⌝); [by right|done]. }
  assert (c <> blank) as Hb by (cbn in Hc; rewrite !elem_of_cons, elem_of_nil in Hc; destruct_or! Hc; by subst).
  rewrite !elem_of_app, elem_of_list_singleton. destruct H as [[H _]|(w & dots & -> & H & H')].
  - intros [?|[?|?]]; [by apply (Ht sp)|done|by apply (Ht sym)].
  - rewrite !elem_of_app, elem_of_list_singleton. intros [[?|[?|?]]|[?|?]]; [by apply (Ht w)|done|by apply (Ht _ H')|done|by apply (Ht sym)].
Qed.

Lemma round_trip pre ds : "<"%char ∉ pre -> ds <> [] -> Forall proper ds -> generate_data (pre ++ data_text ds) = Ok ds.
Proof.
  intros Hpre Hne Hds. rewrite data_text_join by done. unfold parameter_list. destruct ds as [|d ds]; [done|]. cbn [map].
  rewrite join_blank. cbn [app list_ascii_of_string].
  set (txt := fun d => species d ++ [blank] ++ symbol d). change (fun d0 => species d0 ++ blank :: symbol d0) with txt.
  change (species d ++ blank :: symbol d) with (txt d).
  rewrite data_ok; [|done|done| |apply lacks_nil].
  - apply Forall_cons in Hds as [Hd Hds]. cbn [specs_of].
    rewrite (proper_read [] d (or_introl eq_refl) Hd : generate_spec (txt d) = Ok d). cbn [rbind].
    assert (specs_of generate_spec (map (cons blank) (map txt ds)) = Ok ds) as ->; [|done].
    clear -Hds. induction Hds as [|d ds Hd _ IH]; [done|]. cbn [map specs_of].
    rewrite (proper_read [blank] d (or_intror eq_refl) Hd : generate_spec (blank :: txt d) = Ok d). cbn [rbind]. by rewrite IH.
  - apply Forall_cons in Hds as [Hd Hds]. apply Forall_cons. split; [apply (proper_clean d); [done|left]|].
    clear -Hds. induction Hds as [|d ds Hd _ IH]; [by apply Forall_nil|]. cbn [map]. apply Forall_cons. split; [|done].
    rewrite elem_of_cons. intros [?|?]; [done|]. by apply (proper_clean d ","%char) in Hd; [|left].
Qed.

(** ** Names *)

Lemma occurs_colons l j : occurs_at ⌜"::"⌝ l j -> l !! j = Some ":"%char /\ l !! S j = Some ":"%char.
Proof.
  intros (a & b & -> & <-). cbn [list_ascii_of_string app]. split; [by apply list_lookup_middle|].
  change (a ++ ":"%char :: ":"%char :: b) with (a ++ [":"%char] ++ ":"%char :: b). rewrite app_assoc. apply list_lookup_middle.
  rewrite app_length. cbn [length]. lia.
Qed.

(** Behind the last double colon there is neither a colon nor a template parameter. *)
Lemma last_colons ns f r : f <> [] -> ":"%char ∉ f -> (r = [] \/ exists x, r = ["<"%char] ++ take 1 x) ->
  find_last ⌜"::"⌝ (ns ++ ⌜"::"⌝ ++ f ++ r) = Some (length ns).
Proof.
  intros Hf Hc Hr. apply find_last_Some; [by exists ns, (f ++ r)|]. intros j [H1 H2]%occurs_colons.
  destruct (decide (j <= length ns)) as [|Hj]; [done|]. exfalso.
  rewrite lookup_app_r in H1, H2 by lia. remember (j - length ns) as k eqn:Ek. replace (S j - length ns) with (S k) in H2 by lia.
  destruct k as [|k]; [lia|]. cbn [list_ascii_of_string app lookup list_lookup] in H1, H2.
  change ((":"%char :: f ++ r) !! k = Some ":"%char) in H1. change ((f ++ r) !! k = Some ":"%char) in H2.
  destruct (decide (k < length f)) as [Hk|Hk].
  { rewrite lookup_app_l in H2 by done. by apply elem_of_list_lookup_2 in H2. }
  rewrite lookup_app_r in H2 by lia. destruct Hr as [-> |[x ->]]; [done|].
  destruct (k - length f) as [|m] eqn:Em; [done|]. destruct m as [|m].
  - destruct k as [|k]; [lia|]. change ((f ++ ["<"%char] ++ take 1 x) !! k = Some ":"%char) in H1.
    rewrite lookup_app_r in H1 by lia. replace (k - length f) with 0 in H1 by lia. done.
  - assert (length (["<"%char] ++ take 1 x) <= 2) by (rewrite app_length, take_length; cbn [length]; lia).
    apply lookup_lt_Some in H2. lia.
Qed.

Lemma no_colons f r : ":"%char ∉ f -> (r = [] \/ exists x, r = ["<"%char] ++ take 1 x) -> find_last ⌜"::"⌝ (f ++ r) = None.
Proof.
  intros Hc Hr. apply find_last_None. intros [i [H1 H2]%occurs_colons].
  destruct (decide (i < length f)) as [Hk|Hk].
  { rewrite lookup_app_l in H1 by done. by apply elem_of_list_lookup_2 in H1. }
  rewrite lookup_app_r in H1, H2 by lia. destruct Hr as [-> |[x ->]]; [done|].
  destruct (i - length f) as [|m] eqn:Em; [done|]. replace (S i - length f) with (S (S m)) in H2 by lia.
  assert (length (["<"%char] ++ take 1 x) <= 2) by (rewrite app_length, take_length; cbn [length]; lia).
  apply lookup_lt_Some in H2. lia.
Qed.

Lemma colon_found ns f ds : lacks ⌜"<"⌝ (prefix_of ns) -> f <> [] -> lacks ⌜":<"⌝ f ->
  let name := prefix_of ns ++ f ++ data_text ds in
  (match find_first ["<"%char] name with
   | Some p => rfind_by ⌜"::"⌝ name p
   | None => find_last ⌜"::"⌝ name
   end) = length <$> ns.
Proof.
  intros Hns Hf Hl name.
  assert (":"%char ∉ f) as Hc by (apply (lacks_ok ⌜":<"⌝); [left|done]).
  assert ("<"%char ∉ f) as Hlt by (apply (lacks_ok ⌜":<"⌝); [right; left|done]).
  assert ("<"%char ∉ prefix_of ns) as Hp by (apply (lacks_ok ⌜"<"⌝); [left|done]).
  assert (forall r, (r = [] \/ exists x, r = ["<"%char] ++ take 1 x) -> find_last ⌜"::"⌝ (prefix_of ns ++ f ++ r) = length <$> ns) as Hfind.
  { intros r Hr. destruct ns as [ns|]; cbn [prefix_of app].
    - rewrite <- app_assoc. by apply last_colons.
    - by apply no_colons. }
  destruct ds as [|d ds].
  - cbn [data_text] in name. unfold name. rewrite find_first_no_char; [apply Hfind; by left|].
    rewrite app_nil_r, elem_of_app. tauto.
  - assert (exists t, data_text (d :: ds) = "<"%char :: t) as [t Et] by (rewrite data_text_join by done; by eexists).
    unfold name. rewrite Et, app_assoc, find_first_char by (rewrite elem_of_app; tauto). unfold rfind_by.
    replace (take (length (prefix_of ns ++ f) + length ⌜"::"⌝) ((prefix_of ns ++ f) ++ "<"%char :: t))
      with ((prefix_of ns ++ f) ++ ["<"%char] ++ take 1 t).
    2:{ rewrite take_app_ge by lia. f_equal. rewrite Nat.add_comm, Nat.add_sub. by destruct t. }
    rewrite <- app_assoc. apply Hfind. right. by exists t.
Qed.

Lemma split_name_ok given ns f ds : lacks ⌜"<"⌝ (prefix_of ns) -> f <> [] -> lacks ⌜":<"⌝ f -> Forall proper ds ->
  split_name given (prefix_of ns ++ f ++ data_text ds)
  = Ok (Names (enclosing ns) f ds (prefix_of ns ++ f ++ if decide (ds = []) then [] else argument_list ds)).
Proof.
  intros Hns Hf Hl Hds. unfold split_name. pose proof (colon_found ns f ds Hns Hf Hl) as Hc. cbv zeta in Hc. rewrite Hc.
  assert ("<"%char ∉ f) as Hlt by (apply (lacks_ok ⌜":<"⌝); [right; left|done]).
  set (name := prefix_of ns ++ f ++ data_text ds).
  assert ((match length <$> ns with
     | Some pos => if pos <? length name - 2 then (Some (pos + 2), take pos name, drop (pos + 2) name) else (None, [], given)
     | None => (Some 0, [], name) end) = (Some (length (prefix_of ns)), enclosing ns, f ++ data_text ds)) as ->.
  { unfold name. destruct ns as [ns|]; cbn [fmap option_fmap option_map prefix_of enclosing]; [|done].
    rewrite (proj2 (Nat.ltb_lt _ _)).
    2:{ rewrite !app_length. cbn [length list_ascii_of_string]. destruct f; [done|]. cbn [length]. lia. }
    replace (length ns + 2) with (length (ns ++ ⌜"::"⌝)) by (by rewrite app_length). rewrite drop_app.
    rewrite <- app_assoc, take_app. done. }
  destruct ds as [|d ds].
  - unfold name. cbn [data_text]. rewrite app_nil_r, data_none by done. cbn [rbind]. rewrite decide_True by done. by rewrite app_nil_r.
  - rewrite round_trip by done. cbn [rbind]. rewrite decide_False by done.
    assert (exists t, data_text (d :: ds) = "<"%char :: t) as [t Et] by (rewrite data_text_join by done; by eexists).
    unfold name. rewrite Et, find_first_char, take_app by done. do 2 f_equal. rewrite arguments_text_join by done.
    rewrite app_assoc, take_app_of by (by rewrite app_length). by rewrite <- app_assoc.
Qed.

(** ** What a class is equivalent to *)

Lemma handle_by_value t w : first_word t w -> exists b, handle_as_ref t = Ok b /\ (b = false <-> by_value t w).
Proof. exact (handle_spec t w). Qed.

Lemma const_prefix t : take 6 t = ⌜"const "⌝ <-> exists t', t = ⌜"const "⌝ ++ t'.
Proof.
  split.
  - intros H. exists (drop 6 t). by rewrite <- H, take_drop.
  - intros [t' ->]. done.
Qed.

Lemma prediction_index n i : 1 <= n -> prediction n i [] = ⌜"prediction"⌝ ++ (if decide (n = 1) then [] else ⌜"_"⌝ ++ Failure.Model.decimal (N.of_nat i)).
Proof.
  intros H. unfold prediction. rewrite (bool_decide_eq_true_2 ([] = [])) by done. rewrite andb_false_r, app_nil_r. f_equal.
  destruct (decide (n = 1)) as [-> |]; [done|]. by rewrite (proj2 (Nat.ltb_lt _ _)) by lia.
Qed.
Lemma prediction_comma n i : 1 <= n -> prediction n i ⌜","⌝ = prediction n i [] ++ (if i <? n - 1 then ⌜", "⌝ else []).
Proof.
  intros H. unfold prediction. rewrite (bool_decide_eq_true_2 ([] = [])), (bool_decide_eq_false_2 (⌜","⌝ = [])) by done.
  rewrite andb_false_r, andb_true_r, app_nil_r, <- app_assoc. done.
Qed.

Lemma equivalents_loop_ok n types : Forall (fun t => exists w, first_word t w) types -> forall i, i + length types = n ->
  exists outs, equivalents_loop n i types = Ok (join ⌜", "⌝ outs) /\ length outs = length types
    /\ forall j t out, types !! j = Some t -> outs !! j = Some out -> passed n (i + j) t out.
Proof.
  induction 1 as [|t types (w & Hw) Hts IH]; intros i Hi.
  - by exists [].
  - destruct (IH (S i)) as (outs & E & El & Ho); [cbn [length] in Hi; lia|]. destruct (handle_by_value t w Hw) as (b & Eb & Hb).
    assert (1 <= n) as Hn by (cbn [length] in Hi; lia).
    set (out := (if bool_decide (take 6 t = ⌜"const "⌝) then [] else ⌜"const "⌝) ++ t ++ (if b then ⌜"&"⌝ else []) ++ ⌜" "⌝ ++ prediction n i []).
    exists (out :: outs). split_and!.
    + cbn [equivalents_loop]. destruct t as [|c t]; [destruct Hw as (m & post & E0 & _ & Hne & _); symmetry in E0; apply app_eq_nil in E0 as [_ E0]; apply app_eq_nil in E0 as [E0 _]; done|].
      rewrite Eb. cbn [rbind]. rewrite E. cbn [rbind]. f_equal. rewrite prediction_comma by done. unfold out.
      destruct outs as [|o outs].
      * destruct types; [|done]. cbn [join length] in *. rewrite (proj2 (Nat.ltb_ge _ _)) by lia. by rewrite !app_nil_r.
      * destruct types as [|t2 types]; [done|]. cbn [length] in Hi. rewrite (proj2 (Nat.ltb_lt _ _)) by lia.
        rewrite (ProofsClass.join_cons_ne _ _ (o :: outs)) by done. by rewrite <- !app_assoc.
    + cbn [length]. by rewrite El.
    + intros [|j] t' out' Ht Hout; cbn in Ht, Hout.
      * injection Ht as <-. injection Hout as <-. rewrite Nat.add_0_r. unfold out. rewrite prediction_index by done.
        exists w, (if bool_decide (take 6 t = ⌜"const "⌝) then [] else ⌜"const "⌝), (if b then ⌜"&"⌝ else []). split; [done|].
        split; [done|]. split.
        -- destruct (decide (take 6 t = ⌜"const "⌝)) as [H|H].
           ++ rewrite bool_decide_eq_true_2 by done. left. by rewrite const_prefix in H.
           ++ rewrite bool_decide_eq_false_2 by done. right. by rewrite const_prefix in H.
        -- destruct b; [right|left]; [|tauto]. split; [|done]. intros H. by apply Hb in H.
      * rewrite Nat.add_succ_r. apply (Ho j); done.
Qed.

Lemma equivalents_ok types : Forall (fun t => exists w, first_word t w) types ->
  exists outs, equivalents types = Ok (join ⌜", "⌝ outs) /\ length outs = length types
    /\ forall j t out, types !! j = Some t -> outs !! j = Some out -> passed (length types) j t out.
Proof. intros H. exact (equivalents_loop_ok (length types) types H 0 eq_refl). Qed.

(** ** What is registered *)

Lemma constructor_ok sc f m s : Forall ascii7 (behavioural_class f m s) -> ~ occurs [underscore; underscore] (behavioural_class f m s) ->
  exists c, behavioural_constructor sc f m s = Ok c /\ entitled (behavioural_class f m s) c.
Proof.
  intros H1 H2. unfold behavioural_constructor, camel_case.
  destruct (ProofsCase.camel_words_all (S (length (behavioural_class f m s))) sc [blank] _ H1 H2 ltac:(lia)) as (ws & vs & W1 & W2 & W3 & W4 & ->).
  cbn [rbind]. eexists. split; [reflexivity|]. exists ws, vs. done.
Qed.
Lemma occurs_twice c l j : occurs_at [c; c] l j -> l !! j = Some c /\ l !! S j = Some c.
Proof.
  intros (a & b & -> & <-). cbn [app]. split; [by apply list_lookup_middle|].
  change (a ++ c :: c :: b) with (a ++ [c] ++ c :: b). rewrite app_assoc. apply list_lookup_middle. rewrite app_length. cbn [length]. lia.
Qed.
Lemma constructors_ok sc fl f s :
  Forall ascii7 (f ++ s) -> ~ occurs [underscore; underscore] (behavioural_class f [] s) ->
  match fl with
  | Standard => exists c, behavioural_constructors sc fl f s = Ok [c] /\ entitled (f ++ ⌜"_"⌝ ++ s) c
  | Diagnostics => exists c d, behavioural_constructors sc fl f s = Ok [c; d]
      /\ entitled (f ++ ⌜"_false_positive_"⌝ ++ s) c /\ entitled (f ++ ⌜"_false_negative_"⌝ ++ s) d
  end.
Proof.
  intros [Hf Hs]%Forall_app Hu.
  assert (forall m, m ∈ [⌜"false_positive"⌝; ⌜"false_negative"⌝] -> Forall ascii7 (f ++ ⌜"_"⌝ ++ m ++ ⌜"_"⌝ ++ s) /\ ~ occurs [underscore; underscore] (f ++ ⌜"_"⌝ ++ m ++ ⌜"_"⌝ ++ s)) as Hm.
  { intros m Hm. assert (Forall ascii7 m /\ exists m1 m2, m = m1 ++ [underscore] ++ m2 /\ underscore ∉ m1 ++ m2 /\ m1 <> [] /\ m2 <> []) as (Ha & m1 & m2 & -> & Hn & Hm1 & Hm2).
    { rewrite !elem_of_cons, elem_of_nil in Hm. destruct Hm as [-> |[-> |[]]].
      - split; [cbn; repeat (apply Forall_cons; split; [unfold ascii7; vm_compute; lia|]); by apply Forall_nil|].
        exists ⌜"false"⌝, ⌜"positive"⌝. split; [done|]. split; [apply (bool_decide_unpack _); by vm_compute|done].
      - split; [cbn; repeat (apply Forall_cons; split; [unfold ascii7; vm_compute; lia|]); by apply Forall_nil|].
        exists ⌜"false"⌝, ⌜"negative"⌝. split; [done|]. split; [apply (bool_decide_unpack _); by vm_compute|done]. }
    split.
    { rewrite !Forall_app in *. destruct Ha as (? & ? & ?). split_and!; try done; (apply Forall_cons; split; [unfold ascii7; vm_compute; lia|by apply Forall_nil]). }
    rewrite elem_of_app in Hn.
    assert (forall l1 l2 : text, ~ occurs [underscore; underscore] (l1 ++ [underscore]) -> ~ occurs [underscore; underscore] ([underscore] ++ l2) ->
              ~ occurs [underscore; underscore] (l1 ++ [underscore] ++ l2)) as Hglue.
    { intros l1 l2 H1 H2 (j & a & b & E & Ej).
      assert ((l1 ++ [underscore] ++ l2) !! j = Some underscore /\ (l1 ++ [underscore] ++ l2) !! S j = Some underscore) as [L1 L2].
      { rewrite E. subst j. cbn [app]. split; [by apply list_lookup_middle|].
        change (a ++ underscore :: underscore :: b) with (a ++ [underscore] ++ underscore :: b). rewrite app_assoc. apply list_lookup_middle.
        rewrite app_length. cbn [length]. lia. }
      assert (forall l (k : nat), l !! k = Some underscore -> l !! S k = Some underscore -> occurs [underscore; underscore] l) as Hocc.
      { intros l k K1 K2. exists k, (take k l), (drop (S (S k)) l). split; [|rewrite take_length; apply lookup_lt_Some in K1; lia].
        rewrite <- (take_drop_middle l k underscore K1) at 1. f_equal. cbn [app]. f_equal. by apply drop_S. }
      destruct (decide (j < length l1)) as [Hj|Hj].
      - apply H1. apply (Hocc _ j).
        + rewrite lookup_app_l in L1 |- * by done. done.
        + destruct (decide (S j < length l1)); [rewrite lookup_app_l in L2 |- * by done; done|].
          rewrite lookup_app_r by lia. by replace (S j - length l1) with 0 by lia.
      - apply H2. rewrite lookup_app_r in L1, L2 by lia. apply (Hocc _ (j - length l1)); [done|].
        by replace (S (j - length l1)) with (S j - length l1) by lia. }
    assert (forall w, underscore ∉ w -> w <> [] -> ~ occurs [underscore; underscore] ([underscore] ++ w ++ [underscore])) as Hword.
    { intros w Hw Hne [j [L1 L2]%occurs_twice]. change ((w ++ [underscore]) !! j = Some underscore) in L2.
      destruct (decide (j < length w)) as [Hj|Hj]; [rewrite lookup_app_l in L2 by done; by apply elem_of_list_lookup_2 in L2|].
      assert (j < length (w ++ [underscore])) as Hj2 by (by apply lookup_lt_Some in L2). rewrite app_length in Hj2. cbn [length] in Hj2.
      destruct j as [|j]; [destruct w; [done|cbn [length] in Hj; lia]|]. change ((w ++ [underscore]) !! j = Some underscore) in L1.
      rewrite lookup_app_l in L1 by lia. by apply elem_of_list_lookup_2 in L1. }
    assert (~ occurs [underscore; underscore] (f ++ [underscore]) /\ ~ occurs [underscore; underscore] ([underscore] ++ s)) as [Hf2 Hs2].
    { unfold behavioural_class in Hu. rewrite (bool_decide_eq_true_2 ([] = [])) in Hu by done. cbn [app] in Hu. split; intros (j & a & b & E & Ej); apply Hu.
      - exists j, a, (b ++ s). split; [|done]. change (f ++ ⌜"_"⌝ ++ s) with (f ++ [underscore] ++ s). rewrite app_assoc, E. by rewrite <- !app_assoc.
      - exists (length (f ++ a)), (f ++ a), b. split; [|done]. change (f ++ ⌜"_"⌝ ++ s) with (f ++ [underscore] ++ s). rewrite E. by rewrite <- !app_assoc. }
    change ⌜"_"⌝ with [underscore].
    apply Hglue; [done|].
    replace ([underscore] ++ (m1 ++ [underscore] ++ m2) ++ [underscore] ++ s) with (([underscore] ++ m1) ++ [underscore] ++ (m2 ++ [underscore] ++ s))
      by (by rewrite <- !app_assoc).
    apply Hglue; [rewrite <- app_assoc; apply Hword; tauto|].
    replace ([underscore] ++ m2 ++ [underscore] ++ s) with (([underscore] ++ m2) ++ [underscore] ++ s) by (by rewrite <- !app_assoc).
    apply Hglue; [rewrite <- app_assoc; apply Hword; tauto|done]. }
  assert (Forall ascii7 (f ++ ⌜"_"⌝ ++ s)) as Ha.
  { rewrite !Forall_app. split_and!; try done. apply Forall_cons; split; [unfold ascii7; vm_compute; lia|by apply Forall_nil]. }
  destruct fl; unfold behavioural_constructors.
  - destruct (constructor_ok sc f [] s) as (c & -> & Hc); [done..|]. cbn [rbind]. exists c. done.
  - destruct (Hm ⌜"false_positive"⌝) as [P1 P2]; [left|]. destruct (Hm ⌜"false_negative"⌝) as [N1 N2]; [right; left|].
    destruct (constructor_ok sc f ⌜"false_positive"⌝ s P1 P2) as (c & -> & Hc). destruct (constructor_ok sc f ⌜"false_negative"⌝ s N1 N2) as (d & -> & Hd).
    cbn [rbind]. exists c, d. done.
Qed.
