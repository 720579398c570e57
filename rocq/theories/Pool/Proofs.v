From stdpp Require Import list list_numbers.
From Verif.Base Require Import ListLemmas.
From Verif.Pool Require Import Model Spec.

Section pool.
  Context (c : conf) (Hnum : 0 < num c).
  Implicit Types s : state.

  Notation nq := (num_queues c).

  (** *** The steps, one by one *)
  Definition next_op (ops : list op) s : state :=
    State (queues s) (fin s) (workers s) (at_client s) ops (S (qindex s)) (size s) (put s) (taken s) (begun s) (finished s).

  Inductive cases s : label -> state -> Prop :=
    | ca_make ok n k : at_client s = CMake k -> k < num c ->
        cases s (Client ok n) (set_client (CMade k) (set_workers (workers s ++ [WPop]) s))
    | ca_made_all ok n k : at_client s = CMake k -> num c <= k -> cases s (Client ok n) (set_client CRun s)
    | ca_made ok n k : at_client s = CMade k ->
        cases s (Client ok n) (State (queues s) (fin s) (workers s) (CMake (S k)) (todo s) (qindex s) (S (size s)) (put s) (taken s) (begun s) (finished s))
    | ca_push_try ok n t ops : at_client s = CRun -> todo s = Push t :: ops -> multi c = true -> size s <= qindex s ->
        cases s (Client ok n) (set_client (CTry t (qindex s) 0) (next_op ops s))
    | ca_push_now ok n t ops : at_client s = CRun -> todo s = Push t :: ops -> multi c = true -> qindex s < size s ->
        cases s (Client ok n) (set_client (CPush t (qindex s mod size s)) (next_op ops s))
    | ca_push_single ok n t ops : at_client s = CRun -> todo s = Push t :: ops -> multi c = false ->
        cases s (Client ok n) (set_client (CPush t 0) (set_todo ops s))
    | ca_get ok n t ops : at_client s = CRun -> todo s = Get t :: ops -> t ∈ finished s -> cases s (Client ok n) (set_todo ops s)
    | ca_join ok n : at_client s = CRun -> todo s = [] -> cases s (Client ok n) (set_client (CFinish 0) s)
    | ca_try_ok n t idx i : at_client s = CTry t idx i -> i < size s * cycles c ->
        cases s (Client true n) (set_client (CNotify ((idx + i) mod size s)) (enqueue ((idx + i) mod size s) t s))
    | ca_try_fail n t idx i : at_client s = CTry t idx i -> i < size s * cycles c ->
        cases s (Client false n) (set_client (CTry t idx (S i)) s)
    | ca_try_undefined ok n t idx i : at_client s = CTry t idx i -> size s = 0 -> cases s (Client ok n) (set_client CUndefined s)
    | ca_try_last ok n t idx i : at_client s = CTry t idx i -> 0 < size s -> size s * cycles c <= i ->
        cases s (Client ok n) (set_client (CPush t (idx mod size s)) s)
    | ca_put ok n t q : at_client s = CPush t q -> cases s (Client ok n) (set_client (CNotify q) (enqueue q t s))
    | ca_notify_none ok n q : at_client s = CNotify q -> waiting c q s = [] -> cases s (Client ok n) (set_client CRun s)
    | ca_notify ok n q : at_client s = CNotify q -> n ∈ waiting c q s -> cases s (Client ok n) (set_client CRun (set_worker n WPop s))
    | ca_finish ok n q : at_client s = CFinish q -> q < nq -> cases s (Client ok n) (set_client (CNotifyAll q) (set_fin q s))
    | ca_finished ok n q : at_client s = CFinish q -> nq <= q -> cases s (Client ok n) (set_client (CJoin 0) s)
    | ca_notify_all ok n q : at_client s = CNotifyAll q ->
        cases s (Client ok n) (set_client (CFinish (S q)) (set_workers (imap (fun w x => wake c q (w, x)) (workers s)) s))
    | ca_join_one ok n k : at_client s = CJoin k -> k < size s -> workers s !! k = Some WExit -> cases s (Client ok n) (set_client (CJoin (S k)) s)
    | ca_end ok n k : at_client s = CJoin k -> size s <= k -> cases s (Client ok n) (set_client CEnd s)
    | ca_pop w ok t l : workers s !! w = Some WPop -> queues s !! own c w = Some (t :: l) ->
        cases s (Worker w ok) (set_worker w (WGot t) (dequeue (own c w) t s))
    | ca_exit w ok : workers s !! w = Some WPop -> queues s !! own c w = Some [] -> fin s !! own c w = Some true ->
        cases s (Worker w ok) (set_worker w WExit s)
    | ca_wait w ok : workers s !! w = Some WPop -> queues s !! own c w = Some [] -> fin s !! own c w = Some false ->
        cases s (Worker w ok) (set_worker w WWait s)
    | ca_begin w ok t : workers s !! w = Some (WGot t) -> cases s (Worker w ok) (set_worker w (WRun t) (begin t s))
    | ca_end_task w ok t : workers s !! w = Some (WRun t) ->
        cases s (Worker w ok) (set_worker w (if multi c then WLoop else WPop) (finish t s))
    | ca_loop w ok : workers s !! w = Some WLoop ->
        cases s (Worker w ok) (set_worker w (if making (at_client s) then WRace else WTry (size s) 0) s)
    | ca_steal w N i t l : workers s !! w = Some (WTry N i) -> i < N -> queues s !! ((w + i) mod N) = Some (t :: l) ->
        cases s (Worker w true) (set_worker w (WGot t) (dequeue ((w + i) mod N) t s))
    | ca_steal_not w ok N i : workers s !! w = Some (WTry N i) -> i < N -> cases s (Worker w ok) (set_worker w (WTry N (S i)) s)
    | ca_steal_none w ok N i : workers s !! w = Some (WTry N i) -> N <= i -> cases s (Worker w ok) (set_worker w WPop s)
    | ca_spurious w : workers s !! w = Some WWait -> cases s (Spurious w) (set_worker w WPop s).

  Lemma step_cases l s s' : step c l s = Some s' -> cases s l s'.
  Proof.
    intros H. destruct l as [ok n|w ok|w]; cbn [step] in H.
    - unfold do_client in H. destruct (at_client s) as [k|k| |t idx i|t q|q|q|q|k| |] eqn:E.
      + destruct (Nat.ltb_spec k (num c)); injection H as <-; [by apply ca_make|by eapply ca_made_all].
      + injection H as <-. by apply ca_made.
      + destruct (todo s) as [|[t|t] ops] eqn:Et.
        * injection H as <-. by apply ca_join.
        * destruct (multi c) eqn:Em; [|injection H as <-; by apply ca_push_single]. cbn zeta in H.
          destruct (Nat.leb_spec (size s) (qindex s)); injection H as <-.
          -- rewrite <- E. by apply ca_push_try.
          -- rewrite <- E. by apply ca_push_now.
        * case_decide; [|done]. injection H as <-. by eapply ca_get.
      + destruct (Nat.ltb_spec i (size s * cycles c)).
        * destruct ok; injection H as <-; [by apply ca_try_ok|by apply ca_try_fail].
        * destruct (Nat.eqb_spec (size s) 0); injection H as <-; [by eapply ca_try_undefined|]. eapply ca_try_last; [done|lia|done].
      + injection H as <-. by apply ca_put.
      + destruct (waiting c q s) as [|x l] eqn:Ew; [injection H as <-; by eapply ca_notify_none|].
        case_decide as Hd; [|done]. injection H as <-. eapply ca_notify; [done|]. by rewrite Ew.
      + destruct (Nat.ltb_spec q nq); injection H as <-; [by apply ca_finish|by eapply ca_finished].
      + injection H as <-. by apply ca_notify_all.
      + destruct (Nat.ltb_spec k (size s)); [|injection H as <-; by eapply ca_end].
        destruct (workers s !! k) as [[]|] eqn:Ew; try done. injection H as <-. by apply ca_join_one.
      + done.
      + done.
    - unfold do_worker in H. destruct (workers s !! w) as [[| |t|t| |N i| |]|] eqn:E; try done.
      + destruct (queues s !! own c w) as [[|t l]|] eqn:Eq; [|injection H as <-; by eapply ca_pop|done].
        destruct (fin s !! own c w) as [[|]|] eqn:Ef; [| |done]; injection H as <-; [by apply ca_exit|by apply ca_wait].
      + injection H as <-. by apply ca_begin.
      + injection H as <-. by apply ca_end_task.
      + injection H as <-. by apply ca_loop.
      + destruct (Nat.ltb_spec i N); [|injection H as <-; by eapply ca_steal_none].
        destruct (queues s !! ((w + i) mod N)) as [[|t l]|] eqn:Eq; [injection H as <-; by apply ca_steal_not| |done].
        destruct ok; injection H as <-; [by eapply ca_steal|by apply ca_steal_not].
    - destruct (workers s !! w) as [[]|] eqn:E; try done. injection H as <-. by apply ca_spurious.
  Qed.

  (** *** Structure *)
  Definition sizes s : Prop :=
    match at_client s with
    | CMake k => length (workers s) = k /\ size s = k /\ k <= num c
    | CMade k => length (workers s) = S k /\ size s = k /\ k < num c
    | _ => length (workers s) = num c /\ size s = num c
    end.

  Definition client_ok s : Prop :=
    match at_client s with
    | CTry _ _ _ => multi c = true
    | CPush _ q | CNotify q | CNotifyAll q => q < nq
    | CFinish q => q <= nq
    | CJoin k => k <= num c /\ forall j, j < k -> workers s !! j = Some WExit
    | CEnd => forall j, j < num c -> workers s !! j = Some WExit
    | CUndefined => False
    | _ => True
    end.

  Definition worker_ok (m : bool) (x : worker) : Prop :=
    match x with
    | WRace => False
    | WTry N _ => N = num c /\ m = false /\ multi c = true
    | WLoop => m = false /\ multi c = true
    | WGot _ | WRun _ => m = false
    | _ => True
    end.

  Record shape s : Prop := {
    sh_queues : length (queues s) = nq;
    sh_fin : length (fin s) = nq;
    sh_sizes : sizes s;
    sh_client : client_ok s;
    sh_workers : Forall (worker_ok (making (at_client s))) (workers s);
    sh_making : making (at_client s) = true -> Forall (fun l => l = []) (queues s)
  }.

  Lemma nq_pos : 0 < nq.
  Proof. unfold num_queues. destruct (multi c); lia. Qed.

  Lemma mod_queue n : multi c = true -> n mod num c < nq.
  Proof. intros H. unfold num_queues. rewrite H. apply Nat.mod_upper_bound. lia. Qed.

  Lemma init_shape ops : shape (init c ops).
  Proof.
    split; cbn; try done; try (rewrite replicate_length; done).
    - unfold sizes. cbn. lia.
    - intros _. apply Forall_replicate. done.
  Qed.

  Lemma worker_ok_made x : worker_ok true x -> worker_ok false x.
  Proof. destruct x; cbn; naive_solver. Qed.

  Lemma waiting_elem q w s : w ∈ waiting c q s <-> workers s !! w = Some WWait /\ own c w = q.
  Proof.
    unfold waiting. rewrite elem_of_list_In, in_map_iff. split.
    - intros ([w' x] & <- & [Hin Hw]%filter_In). cbn. apply elem_of_list_In, elem_of_lookup_imap in Hin as (i & y & [= -> ->] & Hl).
      unfold is_waiting in Hw. cbn in Hw. destruct y; try done. apply Nat.eqb_eq in Hw. done.
    - intros [Hl Hq]. exists (w, WWait). split; [done|]. apply filter_In. split.
      + apply elem_of_list_In, elem_of_lookup_imap. by exists w, WWait.
      + unfold is_waiting. cbn. by apply Nat.eqb_eq.
  Qed.

  (** Steps of workers. *)
  Lemma shape_worker s w x y qs ts ts' ts'' :
    shape s -> workers s !! w = Some x -> x <> WExit -> worker_ok (making (at_client s)) y ->
    length qs = nq -> (making (at_client s) = true -> Forall (fun l => l = []) qs) ->
    shape (State qs (fin s) (<[w := y]> (workers s)) (at_client s) (todo s) (qindex s) (size s) (put s) ts ts' ts'').
  Proof.
    intros [H1 H2 H3 H4 H5 H6] Hw Hx Hy Hq Hm. split; cbn; try done.
    - unfold sizes in *. cbn. by rewrite insert_length.
    - unfold client_ok in *. cbn. assert (Hne : forall j, workers s !! j = Some WExit -> <[w := y]> (workers s) !! j = Some WExit).
      { intros j Hj. rewrite list_lookup_insert_ne; [done|]. intros ->. congruence. }
      destruct (at_client s); try done; [|by eauto]. destruct H4 as [? H4]. by eauto.
    - by apply Forall_insert.
  Qed.

  Lemma shape_ok s w x : shape s -> workers s !! w = Some x -> worker_ok (making (at_client s)) x.
  Proof. intros Hs Hw. pose proof (sh_workers s Hs) as H. rewrite Forall_lookup in H. by eapply H. Qed.

  Lemma making_queue s q l : shape s -> making (at_client s) = true -> queues s !! q = Some l -> l = [].
  Proof. intros Hs Hm Hq. pose proof (sh_making s Hs Hm) as H. rewrite Forall_lookup in H. by eapply H. Qed.

  Lemma step_shape l s s' : shape s -> step c l s = Some s' -> shape s'.
  Proof.
    intros Hs H%step_cases. pose proof nq_pos as Hpos. pose proof (shape_ok s) as Hok. pose proof (making_queue s) as Hmq.
    destruct (Hs) as [H1 H2 H3 H4 H5 H6]. destruct H.
    21-30: unfold set_worker, begin, finish, dequeue; cbn [queues fin workers at_client todo qindex size put taken begun finished].
    - unfold sizes, client_ok in *. rewrite H in *. cbn in *. split; try done; unfold sizes, client_ok; cbn.
      + rewrite app_length. cbn. lia.
      + by apply Forall_app_2; [|apply Forall_singleton].
    - unfold sizes, client_ok in *. rewrite H in *. cbn in *. split; try done; unfold sizes, client_ok; cbn; [lia|].
      eapply Forall_impl; [done|]. apply worker_ok_made.
    - unfold sizes, client_ok in *. rewrite H in *. cbn in *. split; try done; unfold sizes, client_ok; cbn. lia.
    - unfold sizes, client_ok in *. rewrite H in *. by split.
    - unfold sizes, client_ok in *. rewrite H in *. split; try done. cbn -[Nat.modulo]. destruct H3 as [_ ->]. by apply mod_queue.
    - unfold sizes, client_ok in *. rewrite H in *. by split.
    - split; try done; unfold sizes, client_ok in *; cbn; by rewrite H in *.
    - unfold sizes, client_ok in *. rewrite H in *. split; try done. cbn. unfold client_ok; cbn. lia.
    - unfold sizes, client_ok in *. rewrite H in *. split; try done; cbn -[Nat.modulo]; [by rewrite alter_length|]. destruct H3 as [_ ->]. by apply mod_queue.
    - unfold sizes, client_ok in *. rewrite H in *. by split.
    - unfold sizes in *. rewrite H in *. lia.
    - unfold sizes, client_ok in *. rewrite H in *. split; try done. cbn -[Nat.modulo]. destruct H3 as [_ ->]. by apply mod_queue.
    - unfold sizes, client_ok in *. rewrite H in *. split; try done; cbn. by rewrite alter_length.
    - unfold sizes, client_ok in *. rewrite H in *. by split.
    - unfold sizes, client_ok in *. rewrite H in *. split; try done; unfold sizes; cbn; [by rewrite insert_length|]. by apply Forall_insert.
    - unfold sizes, client_ok in *. rewrite H in *. split; try done; cbn. by rewrite insert_length.
    - unfold sizes, client_ok in *. rewrite H in *. split; try done; unfold client_ok; cbn. split; [lia|intros; lia].
    - unfold sizes, client_ok in *. rewrite H in *. split; try done; unfold sizes; cbn; [by rewrite imap_length|].
      apply Forall_lookup. intros i x. rewrite list_lookup_imap. destruct (workers s !! i) as [y|] eqn:E; [|done]. cbn. intros [= <-].
      unfold wake. destruct (is_waiting c q (i, y)); [done|]. cbn. specialize (Hok i y Hs E). done.
    - unfold sizes, client_ok in *. rewrite H in *. split; try done; unfold client_ok; cbn. destruct H4 as [H4 H4']. split; [lia|].
      intros j Hj. destruct (decide (j = k)) as [->|]; [done|]. apply H4'. lia.
    - unfold sizes, client_ok in *. rewrite H in *. split; try done; unfold client_ok; cbn. intros j Hj. apply H4. lia.
    - eapply shape_worker; try done; [|by rewrite alter_length|]; cbn.
      + destruct (making (at_client s)) eqn:E; [|done]. by specialize (Hmq (own c w) _ Hs eq_refl H0).
      + intros E. by specialize (Hmq (own c w) _ Hs E H0).
    - by eapply shape_worker.
    - by eapply shape_worker.
    - eapply shape_worker; try done. exact (Hok w _ Hs H).
    - eapply shape_worker; try done. specialize (Hok w _ Hs H). cbn in Hok. by destruct (multi c) eqn:E.
    - eapply shape_worker; try done. destruct (Hok w _ Hs H) as [Hm He]. rewrite Hm. cbn. split; [|done].
      unfold sizes in H3. destruct (at_client s); try done; lia.
    - destruct (Hok w _ Hs H) as (-> & Hm & He). eapply shape_worker; try done; [by rewrite alter_length|]. by rewrite Hm.
    - destruct (Hok w _ Hs H) as (-> & Hm & He). by eapply shape_worker.
    - by eapply shape_worker.
    - by eapply shape_worker.
  Qed.
End pool.
