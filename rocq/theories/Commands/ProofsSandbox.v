(** Runs in a sandbox *)
From Coq Require Import Ascii String ZArith.
From stdpp Require Import list list_numbers sets.
From Verif.Base Require Import Outcome ListLemmas.
From Verif.Text Require Import Model.
From Verif.Text Require Spec.
From Verif.Failure Require Model Proofs.
From Verif.Shell Require Spec Proofs.
From Verif.Commands Require Import Model Spec ProofsNumbers ProofsLines ProofsRun.
Local Open Scope res_scope.
Local Notation "⌜ s ⌝" := (list_ascii_of_string s%string).
Local Notation length := List.length.
Local Notation concat := List.concat.
Local Notation plain := Shell.Spec.plain.
Local Notation decimal := Failure.Model.decimal.

Definition async_words (c : concurrency) (size : Z) : list text :=
  match c with Serial => [⌜"--serial"⌝] | Dynamic => [] | Fixed => [⌜"--thread-pool"⌝; decimal (Z.to_N size)] end.
Definition sandbox_words (is ss : list text) (s : state) (i : N) : list text :=
  [⌜"locate"⌝; decimal (Z.to_N (reps s)); ⌜"--runner-id"⌝; decimal i] ++ concat (map (fun f => [⌜"select"⌝; f]) is)
  ++ concat (map (fun n => [⌜"test"⌝; n]) ss) ++ async_words (conc s) (pool s).

(** Words, each after a blank *)
Definition spaced (ws : list text) : text := concat (map (fun w => " "%char :: w) ws).
Lemma spaced_app ws ws' : spaced (ws ++ ws') = spaced ws ++ spaced ws'.
Proof. unfold spaced. by rewrite map_app, concat_app. Qed.
Lemma join_spaced w ws : Text.Spec.join [Shell.Spec.blank] (w :: ws) = w ++ spaced ws.
Proof.
  revert w. induction ws as [|v ws IH]; intros w; [cbn; by rewrite app_nil_r|].
  change (Text.Spec.join [Shell.Spec.blank] (w :: v :: ws)) with (w ++ [Shell.Spec.blank] ++ Text.Spec.join [Shell.Spec.blank] (v :: ws)). rewrite IH. done.
Qed.

Lemma spaced_marks (k : text) l : concat (map (fun p : text * bool => if snd p then " "%char :: k ++ " "%char :: fst p else []) l) =
  spaced (concat (map (fun f => [k; f]) (found l))).
Proof.
  induction l as [|[x b] l IH]; [done|]. unfold found in *. cbn [map List.concat snd fst omap list_omap]. rewrite IH. destruct b; [|done].
  cbn [map List.concat app]. unfold spaced. cbn [map List.concat app]. rewrite <-!app_assoc. cbn [app]. done.
Qed.
Lemma command_words exe its sts s i : sandbox_command exe its sts s i = Text.Spec.join [Shell.Spec.blank] (exe :: sandbox_words (found its) (found sts) s i).
Proof.
  rewrite join_spaced. unfold sandbox_command, sandbox_words, specified. f_equal. rewrite !spaced_app, <-!spaced_marks.
  assert (async_option (conc s) (pool s) = spaced (async_words (conc s) (pool s))) as -> by (by destruct (conc s); cbn; rewrite ?app_nil_r).
  rewrite <-app_assoc. 
  assert (spaced [⌜"locate"⌝; decimal (Z.to_N (reps s)); ⌜"--runner-id"⌝; decimal i] =
    ⌜" locate "⌝ ++ decimal (Z.to_N (reps s)) ++ ⌜" --runner-id "⌝ ++ decimal i) as ->.
  { unfold spaced. cbn [map List.concat]. rewrite app_nil_r. done. }
  rewrite <-!app_assoc. done.
Qed.

Lemma digit_plain c : is_digit c -> Shell.Spec.plain_char c.
Proof.
  intros Hd. assert (forall c, implb (bool_decide (is_digit c)) (bool_decide (Shell.Spec.plain_char c)) = true) as H by (apply for_chars; by vm_compute).
  specialize (H c). rewrite (bool_decide_eq_true_2 _ Hd) in H. by apply bool_decide_eq_true in H.
Qed.
Lemma decimal_plain n : plain (decimal n).
Proof.
  split; [|eapply Forall_impl; [apply digits_digits|apply digit_plain]].
  unfold decimal. intros E. by apply (Failure.Proofs.to_uint_not_nil n); destruct (N.to_uint n).
Qed.
Lemma plain_check w : bool_decide (w <> []) && forallb (fun c => bool_decide (Shell.Spec.plain_char c)) w = true -> plain w.
Proof.
  intros [H1 H2]%andb_true_iff. apply bool_decide_eq_true in H1. split; [done|]. rewrite forallb_forall in H2.
  apply Forall_forall. intros c Hc. apply elem_of_list_In, H2 in Hc. by apply bool_decide_eq_true in Hc.
Qed.
Lemma pairs_plain k l : plain k -> Forall plain l -> Forall plain (concat (map (fun f => [k; f]) l)).
Proof. intros Hk. induction 1; cbn [map List.concat app]; [done|]. apply Forall_cons_2; [done|]. by apply Forall_cons_2. Qed.

Lemma words_plain is ss s i : Forall plain is -> Forall plain ss -> Forall plain (sandbox_words is ss s i).
Proof.
  intros Hi Hs. unfold sandbox_words. rewrite !Forall_app. split; [|split; [|split]].
  - repeat first [apply Forall_cons; split|by apply Forall_nil]; try apply decimal_plain; apply plain_check; by vm_compute.
  - apply pairs_plain; [apply plain_check; by vm_compute|done].
  - apply pairs_plain; [apply plain_check; by vm_compute|done].
  - destruct (conc s); repeat first [apply Forall_cons; split|by apply Forall_nil]; try apply decimal_plain; apply plain_check; by vm_compute.
Qed.

(** What is said *)
Definition async_usage {A} (c : concurrency) (size : A) : list (usage A) :=
  match c with Serial => [RunSerially] | Dynamic => [] | Fixed => [ThreadPool size] end.
Definition sandbox_usage {A} (is ss : list text) (c : concurrency) (r i size : A) : list (usage A) :=
  LocateInstabilities r [AsRunner i] :: map SelectFile is ++ map TestSuite ss ++ async_usage c size.

Lemma sandbox_says is ss s i : exists wss, concat wss = sandbox_words is ss s i /\
  Forall2 says (sandbox_usage is ss (conc s) (decimal (Z.to_N (reps s))) (decimal i) (decimal (Z.to_N (pool s)))) wss.
Proof.
  exists ([⌜"locate"⌝; decimal (Z.to_N (reps s)); ⌜"--runner-id"⌝; decimal i] :: map (fun f => [⌜"select"⌝; f]) is ++ map (fun n => [⌜"test"⌝; n]) ss
      ++ match conc s with Dynamic => [] | _ => [async_words (conc s) (pool s)] end).
  split.
  - cbn [List.concat]. unfold sandbox_words. rewrite !concat_app. do 3 f_equal. destruct (conc s); cbn; done.
  - constructor.
    { apply (says_locate _ [AsRunner (decimal i)] _ [[⌜"--runner-id"⌝; decimal i]]); [set_solver|]. by repeat constructor. }
    apply Forall2_app; [|apply Forall2_app].
    + induction is; constructor; [constructor; set_solver|done].
    + induction ss; constructor; [constructor; set_solver|done].
    + destruct (conc s); repeat constructor.
Qed.

Lemma decimal_number z : (0 <= z < 2 ^ 31)%Z -> number (decimal (Z.to_N z)) z /\ fits z.
Proof.
  intros Hz. apply stoi_ok. rewrite stoi_decimal by lia. f_equal. lia.
Qed.
Lemma sandbox_means is ss s i : (2 <= reps s < 2 ^ 31)%Z -> (0 <= i < reps s)%Z -> (conc s = Fixed -> 0 < pool s < 2 ^ 31)%Z ->
  Forall2 means (sandbox_usage is ss (conc s) (decimal (Z.to_N (reps s))) (decimal (Z.to_N i)) (decimal (Z.to_N (pool s))))
    (sandbox_usage is ss (conc s) (reps s) i (pool s)).
Proof.
  intros Hr Hi Hp. constructor.
  { destruct (decimal_number (reps s)) as [H1 H2]; [lia|]. constructor; [done|done|lia|]. constructor; [|constructor]. cbn. apply decimal_number. lia. }
  apply Forall2_app; [|apply Forall2_app].
  - induction is; constructor; [constructor|done].
  - induction ss; constructor; [constructor|done].
  - destruct (conc s) eqn:E; [by repeat constructor|constructor|]. constructor; [|constructor].
    destruct (decimal_number (pool s)) as [H1 H2]; [specialize (Hp eq_refl); lia|]. by constructor.
Qed.

Lemma quiet (P : usage Z -> bool) is ss c r i size : (forall x, P (SelectFile x) = false) -> (forall x, P (TestSuite x) = false) ->
  existsb P (sandbox_usage is ss c r i size) = P (LocateInstabilities r [AsRunner i]) || existsb P (async_usage c size).
Proof.
  intros H1 H2. unfold sandbox_usage. cbn [existsb]. rewrite !existsb_app.
  assert (existsb P (map SelectFile is) = false) as -> by (induction is; cbn; [done|by rewrite H1]).
  assert (existsb P (map TestSuite ss) = false) as -> by (induction ss; cbn; [done|by rewrite H2]). done.
Qed.
Lemma quiet_omap {B} (P : usage Z -> option B) is ss c r i size : (forall x, P (SelectFile x) = None) -> (forall x, P (TestSuite x) = None) ->
  omap P (sandbox_usage is ss c r i size) = omap P [LocateInstabilities r [AsRunner i]] ++ omap P (async_usage c size).
Proof.
  intros H1 H2. unfold sandbox_usage. change (LocateInstabilities r [AsRunner i] :: ?l) with ([LocateInstabilities r [AsRunner i]] ++ l) at 1. rewrite !(omap_app P).
  assert (omap P (map SelectFile is) = []) as -> by (induction is; cbn; [done|by rewrite H1]).
  assert (omap P (map TestSuite ss) = []) as -> by (induction ss; cbn; [done|by rewrite H2]). done.
Qed.
Lemma quiet_concat {B} (P : usage Z -> list B) is ss c r i size : (forall x, P (SelectFile x) = []) -> (forall x, P (TestSuite x) = []) ->
  concat (map P (sandbox_usage is ss c r i size)) = P (LocateInstabilities r [AsRunner i]) ++ concat (map P (async_usage c size)).
Proof.
  intros H1 H2. unfold sandbox_usage. cbn [map List.concat]. rewrite !map_app, !concat_app.
  assert (concat (map P (map SelectFile is)) = []) as -> by (induction is; cbn; [done|by rewrite H1]).
  assert (concat (map P (map TestSuite ss)) = []) as -> by (induction ss; cbn; [done|by rewrite H2]). done.
Qed.

Lemma sandbox_conc is ss c r i size : (c = Fixed -> 0 < size)%Z -> wanted_conc (sandbox_usage is ss c r i size) = c.
Proof.
  intros Hp. unfold wanted_conc. rewrite quiet_omap, !quiet by done. destruct c; [done|done|]. cbn. by rewrite (proj2 (Z.ltb_lt 0 size) (Hp eq_refl)).
Qed.

Lemma sandbox_wanted is ss s i d : (0 <= i < 2 ^ 64)%Z -> (conc s = Fixed -> 0 < pool s)%Z ->
  as_wanted (sandbox_usage is ss (conc s) (reps s) i (pool s)) d = in_sandbox s is ss i d.
Proof.
  intros Hi Hp. unfold as_wanted, in_sandbox. rewrite sandbox_conc by done. unfold wanted_instab, wanted_reps, cleared.
  rewrite !(quiet is_create), !(quiet is_init), !(quiet is_prune), !(quiet is_verbose), !(quiet is_update), !(quiet is_locate), !(quiet is_recover), !(quiet is_dump) by done.
  rewrite !quiet_concat by done.
  rewrite (quiet_omap said_locate), (quiet_omap pool_of), (quiet_omap created_of), (quiet_omap inited_of), (quiet_omap senseless_pool) by done.
  assert (omap suite_of (sandbox_usage is ss (conc s) (reps s) i (pool s)) = ss) as ->.
  { unfold sandbox_usage. cbn [omap list_omap suite_of]. change list_omap with (@omap list _). rewrite !omap_app.
    assert (omap suite_of (map SelectFile is) = []) as -> by (by induction is).
    assert (omap suite_of (map TestSuite ss) = ss) as -> by (induction ss; cbn; [done|by f_equal]). by destruct (conc s); cbn; rewrite app_nil_r. }
  assert (omap file_of (sandbox_usage is ss (conc s) (reps s) i (pool s)) = is) as ->.
  { unfold sandbox_usage. cbn [omap list_omap file_of]. change list_omap with (@omap list _). rewrite !omap_app.
    assert (omap file_of (map SelectFile is) = is) as -> by (induction is; cbn; [done|by f_equal]).
    assert (omap file_of (map TestSuite ss) = []) as -> by (by induction ss). by destruct (conc s); cbn; rewrite app_nil_r. }
  destruct (conc s) eqn:Ec; cbn [existsb async_usage is_create is_init is_prune is_verbose is_update is_locate is_recover is_dump orb andb negb map List.concat app cutoffs_of ids_of omap list_omap said_locate pool_of created_of inited_of senseless_pool last last_or default];
    rewrite ?orb_true_r.
  - unfold last_or. cbn [last default from_option id]. rewrite Z.mod_small by lia. done.
  - unfold last_or. cbn [last default from_option id]. rewrite Z.mod_small by lia. done.
  - rewrite (proj2 (Z.ltb_lt 0 (pool s)) (Hp eq_refl)). unfold last_or. cbn [last default from_option id]. rewrite Z.mod_small by lia. done.
Qed.

Lemma sandbox_consistent is ss c r i size : (c = Fixed -> 0 < size)%Z -> ~ contradictory (sandbox_usage is ss c r i size).
Proof. intros Hp [H _]. rewrite !quiet in H by done. destruct c; cbn in H; destruct H; done. Qed.

Theorem sandbox_run exe its sts s i d : plain exe -> Forall plain (found its) -> Forall plain (found sts) ->
  (2 <= reps s < 2 ^ 31)%Z -> (0 <= i < reps s)%Z -> (conc s = Fixed -> 0 < pool s < 2 ^ 31)%Z ->
  exists ws, Shell.Spec.reading (sandbox_command exe its sts s (Z.to_N i)) = Some [Shell.Spec.Command (exe :: ws) []] /\
    process_args (exe :: ws) d = Ok ([], in_sandbox s (found its) (found sts) i d).
Proof.
  intros He Hi Hs Hr Hid Hp. exists (sandbox_words (found its) (found sts) s (Z.to_N i)). split.
  - rewrite command_words. apply Shell.Proofs.reading_words; [done|]. constructor; [done|by apply words_plain].
  - destruct (sandbox_says (found its) (found sts) s (Z.to_N i)) as (wss&<-&HF).
    rewrite (process_wanted exe _ wss (sandbox_usage (found its) (found sts) (conc s) (reps s) i (pool s)) d HF).
    + rewrite sandbox_wanted; [done|lia|lia].
    + by apply sandbox_means.
    + apply sandbox_consistent. lia.
Qed.

(** The numbers of a runner which starts others *)
Lemma means_said us vs : Forall2 means us vs -> Forall (fun v => (forall n ls, v = LocateInstabilities n ls -> 2 <= n < 2 ^ 31) /\ (forall n, v = ThreadPool n -> fits n))%Z vs.
Proof.
  induction 1 as [|u v us vs H _ IH]; constructor; [|done]. destruct H as [| | | | | |x z ls ms _ Hz H2 _| | | |x z _ Hz|]; split; intros; try done.
  - simplify_eq. unfold fits in Hz. lia.
  - by simplify_eq.
Qed.
Lemma wanted_numbers us vs : Forall2 means us vs -> (wanted_instab vs <> Stable -> 2 <= wanted_reps vs < 2 ^ 31)%Z /\
  (0 < last_or 8 (omap pool_of vs) < 2 ^ 31)%Z.
Proof.
  intros H. apply means_said in H. clear us. split.
  - unfold wanted_instab, wanted_reps. intros Hi. destruct (last (omap said_locate vs)) as [[n ls]|] eqn:E; [|done].
    apply last_Some in E as [l E]. assert ((n, ls) ∈ omap said_locate vs) as Hin by (rewrite E; apply elem_of_app; right; by left).
    apply elem_of_list_omap in Hin as (v&Hv&Ev). rewrite Forall_forall in H. destruct (H v Hv) as [H1 _]. destruct v; try done. injection Ev as <- <-. by apply (H1 n0 ls0).
  - unfold last_or. destruct (last (omap pool_of vs)) as [n|] eqn:E; [|cbn; lia]. cbn.
    apply last_Some in E as [l E]. assert (n ∈ omap pool_of vs) as Hin by (rewrite E; apply elem_of_app; right; by left).
    apply elem_of_list_omap in Hin as (v&Hv&Ev). rewrite Forall_forall in H. destruct (H v Hv) as [_ H1]. destruct v; try done. cbn in Ev.
    destruct (Z.ltb_spec 0 n0); [|done]. injection Ev as ->. specialize (H1 n eq_refl). unfold fits in H1. lia.
Qed.

Theorem sandbox_runs us vs d exe its sts i d' (s := as_wanted vs d) : Forall2 means us vs -> wanted_instab vs = Coordinator ->
  plain exe -> Forall plain (found its) -> Forall plain (found sts) -> (0 <= i < reps s)%Z ->
  exists cmd ws, sandbox_commands exe its sts s !! Z.to_nat i = Some cmd /\
    Shell.Spec.reading cmd = Some [Shell.Spec.Command (exe :: ws) []] /\
    process_args (exe :: ws) d' = Ok ([], in_sandbox s (found its) (found sts) i d').
Proof.
  intros HM Hc He Hi Hs Hid. destruct (wanted_numbers us vs HM) as [H1 H2]. rewrite Hc in H1.
  assert (2 <= reps s < 2 ^ 31)%Z as Hr by (apply H1; done).
  destruct (sandbox_run exe its sts s i d' He Hi Hs Hr Hid) as (ws&Hw&Hp); [intros _; exact H2|].
  exists (sandbox_command exe its sts s (Z.to_N i)), ws. split; [|done]. unfold sandbox_commands.
  change (map ?f ?l) with (f <$> l). rewrite list_lookup_fmap.
  assert (seq 0 (Z.to_nat (reps s)) !! Z.to_nat i = Some (Z.to_nat i)) as ->.
  { apply lookup_seq. lia. }
  cbn. do 2 f_equal. lia.
Qed.

Theorem sandbox_number us vs d exe its sts : Forall2 means us vs -> wanted_instab vs = Coordinator ->
  length (sandbox_commands exe its sts (as_wanted vs d)) = Z.to_nat (wanted_reps vs) /\ (2 <= wanted_reps vs)%Z.
Proof.
  intros HM Hc. destruct (wanted_numbers us vs HM) as [H1 _]. rewrite Hc in H1. split; [|destruct H1; [done|lia]].
  unfold sandbox_commands. by rewrite map_length, seq_length.
Qed.
