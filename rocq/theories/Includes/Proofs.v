(** Proofs about the search for include directives. *)
From Coq Require Import Ascii String.
From stdpp Require Import list.
From Verif.Base Require Import Outcome ListLemmas.
From Verif.Text Require Import Model Spec Proofs.
From Verif.Failure Require Import Model.
From Verif.Includes Require Import Model Spec.
Local Open Scope res_scope.

Local Notation length := List.length.
Local Notation concat := List.concat.

Lemma occurs_cons from x l : from <> [] -> occurs from (x :: l) <-> (exists post, x :: l = from ++ post) \/ occurs from l.
Proof.
  intros Hf. split.
  - intros [[|i] Hi]; [left; by apply occurs_at_0|right]. exists i. exact (proj1 (occurs_at_S _ _ _ _) Hi).
  - intros [H|[i Hi]]; [exists 0; by apply occurs_at_0|]. exists (S i). by apply (proj2 (occurs_at_S _ _ _ _)).
Qed.

Lemma occurs_nil from : from <> [] -> ~ occurs from [].
Proof. intros Hf [i Hi]. apply occurs_at_nil_r in Hi as [_ ->]. done. Qed.

Lemma occurs_two a b x l : occurs [a; b] (x :: l) <-> (x = a /\ head l = Some b) \/ occurs [a; b] l.
Proof.
  rewrite occurs_cons by done. split; intros [H|H]; [left|by right|left|by right].
  - destruct H as [post [= -> ->]]. done.
  - destruct H as [-> H]. destruct l as [|y l]; [done|]. injection H as ->. by exists l.
Qed.

(** *** The parts read *)

Lemma from_stream_stop ds w d r : (forall c, c ∈ w -> c ∉ ds) -> d ∈ ds -> from_stream ds (w ++ d :: r) = (w, r).
Proof.
  intros Hw Hd. induction w as [|c w IH]; cbn [app from_stream].
  - by rewrite decide_True.
  - rewrite decide_False by (apply Hw; left). rewrite IH; [done|]. intros x Hx. apply Hw. by right.
Qed.

Lemma from_stream_end ds w : (forall c, c ∈ w -> c ∉ ds) -> from_stream ds w = (w, []).
Proof.
  intros Hw. induction w as [|c w IH]; cbn [from_stream]; [done|].
  rewrite decide_False by (apply Hw; left). rewrite IH; [done|]. intros x Hx. apply Hw. by right.
Qed.

Lemma from_stream_cases (ds s : text) :
  (exists w d r, s = w ++ d :: r /\ (forall c, c ∈ w -> c ∉ ds) /\ d ∈ ds) \/ (forall c, c ∈ s -> c ∉ ds).
Proof.
  induction s as [|c s IH]; [right; intros c Hc; by apply elem_of_nil in Hc|].
  destruct (decide (c ∈ ds)) as [Hc|Hc].
  - left. exists [], c, s. split; [done|]. split; [|done]. intros x Hx. by apply elem_of_nil in Hx.
  - destruct IH as [(w & d & r & -> & Hw & Hd)|Hs].
    + left. exists (c :: w), d, r. split; [done|]. split; [|done]. intros x [->|Hx]%elem_of_cons; [done|by apply Hw].
    + right. intros x [->|Hx]%elem_of_cons; [done|by apply Hs].
Qed.

Lemma not_in_one (c : ascii) (w : text) : c ∉ w -> forall x, x ∈ w -> x ∉ [c].
Proof. intros Hc x Hx [->|H]%elem_of_cons; [done|by apply elem_of_nil in H]. Qed.

Lemma not_in_two (a b : ascii) (w : text) : a ∉ w -> b ∉ w -> forall x, x ∈ w -> x ∉ [a; b].
Proof. intros Ha Hb x Hx [->|[->|H]%elem_of_cons]%elem_of_cons; [done|done|by apply elem_of_nil in H]. Qed.

Lemma skip_block_stop x s : ~ occurs block_end (x ++ [star]) -> skip_block (x ++ block_end ++ s) = s.
Proof.
  unfold block_end. induction x as [|c x IH]; intros Hx; cbn [app].
  - cbn [skip_block]. by rewrite !decide_True.
  - cbn [app] in Hx. rewrite occurs_two in Hx. cbn [skip_block].
    assert (IH' := IH (fun H => Hx (or_intror H))). cbn [app] in IH'.
    destruct (decide (c = star)) as [->|Hc]; [|done].
    destruct x as [|d x]; cbn [app] in *; [exact IH'|].
    rewrite decide_False; [exact IH'|]. intros ->. apply Hx. by left.
Qed.

Lemma skip_block_none x : ~ occurs block_end x -> skip_block x = [].
Proof.
  unfold block_end. induction x as [|c x IH]; intros Hx; [done|].
  rewrite occurs_two in Hx. assert (IH' := IH (fun H => Hx (or_intror H))). cbn [skip_block].
  destruct (decide (c = star)) as [->|Hc]; [|done]. destruct x as [|d x]; [done|].
  rewrite decide_False; [exact IH'|]. intros ->. apply Hx. by left.
Qed.

Lemma block_cases s :
  (exists x r, s = x ++ block_end ++ r /\ ~ occurs block_end (x ++ [star])) \/ ~ occurs block_end s.
Proof.
  unfold block_end. induction s as [|c s IH]; [right; by apply occurs_nil|].
  destruct (decide (c = star /\ head s = Some slash)) as [[-> Hs]|Hc].
  - destruct s as [|d s]; [done|]. injection Hs as ->. left. exists [], s. split; [done|]. cbn [app].
    rewrite occurs_two. intros [[_ H]|H]; [done|]. by apply occurs_nil in H.
  - destruct IH as [(x & r & -> & Hx)|Hs].
    + left. exists (c :: x), r. split; [done|]. cbn [app]. rewrite occurs_two. intros [[-> H]|H]; [|done].
      apply Hc. split; [done|]. destruct x; cbn in *; [done|done].
    + right. rewrite occurs_two. intros [H|H]; [by apply Hc|done].
Qed.

Lemma skip_space_spaces sp s : spaces sp -> skip_space (sp ++ s) = skip_space s.
Proof. induction 1 as [|c sp Hc _ IH]; [done|]. cbn [app skip_space]. by rewrite Hc. Qed.

Lemma spaces_cases s : spaces s \/ exists sp c r, s = sp ++ c :: r /\ spaces sp /\ is_space c = false.
Proof.
  induction s as [|c s IH]; [left; constructor|]. destruct (is_space c) eqn:Hc.
  - destruct IH as [IH|(sp & d & r & -> & Hsp & Hd)]; [left; by constructor|].
    right. exists (c :: sp), d, r. split; [done|]. split; [by constructor|done].
  - right. exists [], c, s. split; [done|]. split; [constructor|done].
Qed.

Lemma marks_not_space o c : marks o c -> is_space o = false.
Proof. by intros []. Qed.

Lemma word_ok x : x ∈ include_word -> x ∉ [" "%char; nl].
Proof. apply not_in_two; apply (bool_decide_unpack _); by vm_compute. Qed.

(** *** Every text is taken apart in some way *)

Theorem names_total cut s : exists ns, names cut s ns.
Proof.
  remember (length s) as n eqn:Hn. revert s Hn.
  induction n as [n IH] using lt_wf_ind. intros s ->.
  assert (Hrec : forall r, length r < length s -> exists ns, names cut r ns) by (intros r Hr; by eapply IH). clear IH.
  destruct s as [|c s]; [exists []; constructor|].
  assert (Hs : exists ns, names cut s ns) by (apply Hrec; simpl; lia).
  destruct (decide (c = slash)) as [->|Hc1].
  { destruct (decide (head s = Some slash)) as [Hh|Hh1].
    - destruct s as [|d s]; [done|]. injection Hh as ->.
      destruct (from_stream_cases [nl] s) as [(w & d & r & -> & Hw & Hd)|Hw].
      + apply elem_of_list_singleton in Hd as ->. destruct (Hrec r) as [ns Hr]; [simpl; rewrite app_length; simpl; lia|].
        exists ns. apply (names_line_comment cut w r ns); [|done]. intros H. apply (Hw nl H). left.
      + exists []. apply (names_last_line_comment cut s). intros H. apply (Hw nl H). left.
    - destruct (decide (head s = Some star)) as [Hh|Hh2].
      + destruct s as [|d s]; [done|]. injection Hh as ->.
        destruct (block_cases s) as [(x & r & -> & Hx)|Hx].
        * destruct (Hrec r) as [ns Hr]; [simpl; rewrite app_length; simpl; lia|].
          exists ns. by apply (names_block_comment cut x r ns).
        * exists []. by apply (names_last_block_comment cut s).
      + destruct Hs as [ns Hs]. exists ns. by constructor. }
  destruct (decide (c = hash)) as [->|Hc2].
  { destruct (from_stream_cases [" "%char; nl] s) as [(w & d & r & -> & Hw & Hd)|Hw].
    - assert (Hw1 : " "%char ∉ w) by (intros H; apply (Hw _ H); left).
      assert (Hw2 : nl ∉ w) by (intros H; apply (Hw _ H); right; left).
      assert (Hd' : d = " "%char \/ d = nl).
      { apply elem_of_cons in Hd as [->|Hd]; [by left|]. apply elem_of_list_singleton in Hd. by right. }
      destruct (decide (w = include_word)) as [->|Hi].
      + destruct (spaces_cases r) as [Hr|(sp & ch & r' & -> & Hsp & Hch)]; [exists []; by apply names_nothing|].
        assert (Hmark : forall o cl, marks o cl -> ch = o ->
          exists ns, names cut (hash :: include_word ++ d :: sp ++ ch :: r') ns).
        { intros o cl Hm ->. destruct (from_stream_cases [cl] r') as [(x & e & r & -> & Hx & He)|Hx].
          - apply elem_of_list_singleton in He as ->. destruct (Hrec r) as [ns Hr].
            { simpl. rewrite ?app_length. simpl. rewrite ?app_length. simpl. rewrite ?app_length. simpl. lia. }
            exists (x :: ns). apply (names_include cut d sp o cl x r ns); try done. intros H. apply (Hx _ H). left.
          - exists [r']. apply (names_last_include cut d sp o cl r'); try done. intros H. apply (Hx _ H). left. }
        destruct (decide (ch = quote)) as [->|Hq]; [by eapply Hmark; [constructor|]|].
        destruct (decide (ch = opening)) as [->|Ho]; [by eapply Hmark; [constructor|]|].
        destruct (Hrec r') as [ns Hr]. { simpl. rewrite ?app_length. simpl. rewrite ?app_length. simpl. lia. }
        exists ns. by apply names_no_mark.
      + destruct (Hrec r) as [ns Hr]; [simpl; rewrite app_length; simpl; lia|]. exists ns. by apply names_directive.
    - exists []. apply names_last_directive; intros H; apply (Hw _ H); [left|right; left]. }
  destruct (decide (head cut = Some c /\ c <> nl)) as [[Hh Hnl]|Hh].
  - destruct (from_stream_cases [nl] s) as [(w & d & r & -> & Hw & Hd)|Hw].
    + apply elem_of_list_singleton in Hd as ->.
      assert (Hw' : nl ∉ c :: w). { intros [H|H]%elem_of_cons; [by rewrite H in Hnl|]. apply (Hw _ H). left. }
      pose proof (find_first_spec cut (c :: w)) as Hf. destruct (find_first cut (c :: w)) as [i|].
      * exists []. apply (names_cut cut c w (nl :: r)); [done..| |by right]. exists i. apply Hf.
      * destruct (Hrec r) as [ns Hr]; [simpl; rewrite app_length; simpl; lia|]. exists ns. by apply (names_line cut c w r ns).
    + assert (Hw' : nl ∉ c :: s). { intros [H|H]%elem_of_cons; [by rewrite H in Hnl|]. apply (Hw _ H). left. }
      pose proof (find_first_spec cut (c :: s)) as Hf. destruct (find_first cut (c :: s)) as [i|].
      * exists []. rewrite <- (app_nil_r (c :: s)). apply (names_cut cut c s []); [done..| |by left]. exists i. apply Hf.
      * exists []. by apply names_last_line.
  - destruct Hs as [ns Hs]. exists ns. constructor; [done|done| |done].
    destruct (decide (c = nl)); [by right|left]. intros H. by apply Hh.
Qed.

(** *** What is found *)

Lemma get_includes_names dir cut s ns fuel :
  names cut s ns -> length s <= fuel -> get_includes fuel dir cut s = Ok (concat (map (included dir) ns)).
Proof.
  intros H. revert fuel. induction H as
    [|c s ns H1 H2 H3 H IH|s ns H1 H2 H IH|x s ns H1 H IH|x H1|x s ns H1 H IH|x H1|w d s ns H1 H2 H3 H4 H IH|w H1 H2
    |d sp o c x s ns H1 H2 H3 H4 H IH|d sp o c x H1 H2 H3 H4|d sp c s ns H1 H2 H3 H4 H5 H IH|d sp H1 H2
    |c x s ns H1 H2 H3 H4 H5 H IH|c x H1 H2 H3 H4 H5|c x s H1 H2 H3 H4 H5 H6]; intros fuel Hfuel.
  - by destruct fuel.
  - destruct fuel as [|fuel]; [simpl in Hfuel; lia|]. cbn [get_includes].
    rewrite (decide_False _ _ H1), (decide_False _ _ H2).
    destruct (decide (head cut = Some c)) as [Hh|Hh].
    + destruct H3 as [H3|H3]; [done|]. subst c. cbn [from_stream]. rewrite decide_True by left.
      assert (find_first cut [] = None) as ->.
      { apply find_first_None. apply occurs_nil. by intros ->. }
      apply IH. simpl in Hfuel. lia.
    + apply IH. simpl in Hfuel. lia.
  - destruct fuel as [|fuel]; [simpl in Hfuel; lia|]. cbn [get_includes]. rewrite decide_True by done.
    assert (Hs : get_includes fuel dir cut s = Ok (concat (map (included dir) ns))) by (apply IH; simpl in Hfuel; lia).
    destruct s as [|d s]; [done|]. rewrite (decide_False (P := d = slash)) by (intros ->; by apply H1).
    rewrite (decide_False (P := d = star)) by (intros ->; by apply H2). done.
  - destruct fuel as [|fuel]; [simpl in Hfuel; lia|]. cbn [app get_includes]. rewrite !decide_True by done.
    change (slash :: x ++ nl :: s) with ((slash :: x) ++ nl :: s).
    rewrite (from_stream_stop [nl] (slash :: x) nl s); [|apply not_in_one|left].
    + cbn [snd]. apply IH. simpl in Hfuel. rewrite app_length in Hfuel. simpl in Hfuel. lia.
    + intros [H'|H']%elem_of_cons; [done|by apply H1].
  - destruct fuel as [|fuel]; [simpl in Hfuel; lia|]. cbn [app get_includes]. rewrite !decide_True by done.
    rewrite (from_stream_end [nl] (slash :: x)); [|apply not_in_one].
    + cbn [snd]. by destruct fuel.
    + intros [H'|H']%elem_of_cons; [done|by apply H1].
  - destruct fuel as [|fuel]; [simpl in Hfuel; lia|]. cbn [app get_includes]. rewrite decide_True by done.
    rewrite (decide_False (P := star = slash)) by done. rewrite (decide_True (P := star = star)) by done.
    rewrite skip_block_stop by done. apply IH. simpl in Hfuel. rewrite app_length in Hfuel. simpl in Hfuel. lia.
  - destruct fuel as [|fuel]; [simpl in Hfuel; lia|]. cbn [app get_includes]. rewrite decide_True by done.
    rewrite (decide_False (P := star = slash)) by done. rewrite (decide_True (P := star = star)) by done.
    rewrite skip_block_none by done. by destruct fuel.
  - destruct fuel as [|fuel]; [simpl in Hfuel; lia|]. cbn [get_includes]. rewrite (decide_False (P := hash = slash)) by done.
    rewrite (decide_True (P := hash = hash)) by done.
    rewrite (from_stream_stop [" "%char; nl] w d s); [|by apply not_in_two|destruct H4 as [-> | ->]; [left|right; left]].
    rewrite decide_False by done. apply IH. simpl in Hfuel. rewrite app_length in Hfuel. simpl in Hfuel. lia.
  - destruct fuel as [|fuel]; [simpl in Hfuel; lia|]. cbn [get_includes]. rewrite (decide_False (P := hash = slash)) by done.
    rewrite (decide_True (P := hash = hash)) by done. rewrite (from_stream_end [" "%char; nl] w); [|by apply not_in_two].
    cbn [skip_space]. case_decide; by destruct fuel.
  - destruct fuel as [|fuel]; [simpl in Hfuel; lia|]. cbn [get_includes]. rewrite (decide_False (P := hash = slash)) by done.
    rewrite (decide_True (P := hash = hash)) by done.
    rewrite (from_stream_stop [" "%char; nl] include_word d); [|exact word_ok|].
    2: destruct H1 as [-> | ->]; [left|right; left].
    rewrite (decide_True (P := include_word = include_word)) by done.
    rewrite skip_space_spaces by done. cbn [skip_space]. rewrite (marks_not_space o c H3).
    assert (Hl : length s <= fuel).
    { revert Hfuel. cbn [length]. rewrite app_length. cbn [length]. rewrite app_length. cbn [length]. rewrite app_length. cbn [length]. lia. }
    destruct H3.
    + rewrite decide_True by done. rewrite from_stream_stop; [|by apply not_in_one|left]. rewrite IH by done. done.
    + rewrite decide_False by done. rewrite decide_True by done. rewrite from_stream_stop; [|by apply not_in_one|left]. rewrite IH by done. done.
  - destruct fuel as [|fuel]; [simpl in Hfuel; lia|]. cbn [get_includes]. rewrite (decide_False (P := hash = slash)) by done.
    rewrite (decide_True (P := hash = hash)) by done.
    rewrite (from_stream_stop [" "%char; nl] include_word d); [|exact word_ok|].
    2: destruct H1 as [-> | ->]; [left|right; left].
    rewrite (decide_True (P := include_word = include_word)) by done.
    rewrite skip_space_spaces by done. cbn [skip_space]. rewrite (marks_not_space o c H3).
    destruct H3.
    + rewrite decide_True by done. rewrite from_stream_end; [|by apply not_in_one]. destruct fuel; cbn; by rewrite app_nil_r.
    + rewrite decide_False by done. rewrite decide_True by done. rewrite from_stream_end; [|by apply not_in_one]. destruct fuel; cbn; by rewrite app_nil_r.
  - destruct fuel as [|fuel]; [simpl in Hfuel; lia|]. cbn [get_includes]. rewrite (decide_False (P := hash = slash)) by done.
    rewrite (decide_True (P := hash = hash)) by done.
    rewrite (from_stream_stop [" "%char; nl] include_word d); [|exact word_ok|].
    2: destruct H1 as [-> | ->]; [left|right; left].
    rewrite (decide_True (P := include_word = include_word)) by done.
    rewrite skip_space_spaces by done. cbn [skip_space]. rewrite H3. rewrite decide_False by done. rewrite decide_False by done.
    apply IH. revert Hfuel. cbn [length]. rewrite app_length. cbn [length]. rewrite app_length. cbn [length]. lia.
  - destruct fuel as [|fuel]; [simpl in Hfuel; lia|]. cbn [get_includes]. rewrite (decide_False (P := hash = slash)) by done.
    rewrite (decide_True (P := hash = hash)) by done.
    rewrite (from_stream_stop [" "%char; nl] include_word d); [|exact word_ok|].
    2: destruct H1 as [-> | ->]; [left|right; left].
    rewrite (decide_True (P := include_word = include_word)) by done.
    rewrite <- (app_nil_r sp), skip_space_spaces by done. cbn [skip_space]. by destruct fuel.
  - destruct fuel as [|fuel]; [simpl in Hfuel; lia|]. cbn [app get_includes]. rewrite (decide_False (P := c = slash)) by done.
    rewrite (decide_False (P := c = hash)) by done. rewrite (decide_True (P := head cut = Some c)) by done.
    change (c :: x ++ nl :: s) with ((c :: x) ++ nl :: s).
    rewrite (from_stream_stop [nl] (c :: x) nl s); [|by apply not_in_one|left].
    rewrite (proj2 (find_first_None _ _) H5). apply IH. simpl in Hfuel. rewrite app_length in Hfuel. simpl in Hfuel. lia.
  - destruct fuel as [|fuel]; [simpl in Hfuel; lia|]. cbn [app get_includes]. rewrite (decide_False (P := c = slash)) by done.
    rewrite (decide_False (P := c = hash)) by done. rewrite (decide_True (P := head cut = Some c)) by done.
    rewrite (from_stream_end [nl] (c :: x)); [|by apply not_in_one].
    rewrite (proj2 (find_first_None _ _) H5). by destruct fuel.
  - destruct fuel as [|fuel]; [simpl in Hfuel; lia|]. cbn [app get_includes]. rewrite (decide_False (P := c = slash)) by done.
    rewrite (decide_False (P := c = hash)) by done. rewrite (decide_True (P := head cut = Some c)) by done.
    change (c :: x ++ s) with ((c :: x) ++ s).
    assert (exists r, from_stream [nl] ((c :: x) ++ s) = (c :: x, r)) as [r ->].
    { destruct s as [|d s].
      - exists []. rewrite app_nil_r. apply from_stream_end. by apply not_in_one.
      - destruct H6 as [?|[= ->]]; [done|]. exists s. apply from_stream_stop; [by apply not_in_one|left]. }
    destruct (find_first cut (c :: x)) eqn:Hf; [done|]. by apply find_first_None in Hf.
Qed.

(** *** What is listed *)

Lemma filename_app p f : p = [] \/ last p = Some slash -> slash ∉ f -> filename (p ++ f) = f.
Proof.
  intros Hp Hf. assert (Hff : filename f = f) by (destruct f as [|c f]; [done|]; cbn [filename]; by rewrite decide_False).
  destruct Hp as [-> |Hp]; [done|]. revert Hp. induction p as [|c p IH]; [done|]. intros Hp. cbn [app filename].
  assert (Hin : slash ∈ c :: p ++ f).
  { change (c :: p ++ f) with ((c :: p) ++ f). apply elem_of_app. left. apply last_Some in Hp as [l' ->]. apply elem_of_app. right. left. }
  rewrite decide_True by done. destruct p as [|d p]; [done|]. apply IH. done.
Qed.

Lemma filename_split x : exists p, x = p ++ filename x /\ (p = [] \/ last p = Some slash) /\ slash ∉ filename x.
Proof.
  induction x as [|c x (p & Hx & Hp & Hs)].
  - exists []. split; [done|]. split; [by left|]. apply not_elem_of_nil.
  - cbn [filename]. destruct (decide (slash ∈ c :: x)) as [Hi|Hi].
    + exists (c :: p). split; [cbn [app]; by f_equal|]. split; [|done]. right.
      destruct p as [|d p].
      * apply elem_of_cons in Hi as [<- |Hi]; [done|]. rewrite Hx in Hi. by cbn in Hi.
      * destruct Hp as [?|Hp]; [done|]. done.
    + exists []. split; [done|]. split; [by left|done].
Qed.

Lemma has_extension_spec x : has_extension x = true <-> with_extension x.
Proof.
  unfold has_extension. rewrite andb_true_iff, !bool_decide_eq_true. split.
  - intros [Hf Ht]. destruct (filename_split x) as (p & Hx & Hp & Hs).
    destruct (filename x) as [|c t] eqn:Hn; [by apply elem_of_nil in Ht|]. cbn [tail] in Ht.
    apply elem_of_list_split in Ht as (t1 & t2 & ->). exists p, (c :: t1), t2.
    split; [done|]. split; [done|]. split; [|done]. intros Hi. apply Hs. change (c :: t1 ++ dot :: t2) with ((c :: t1) ++ [dot] ++ t2).
    rewrite !elem_of_app in *. tauto.
  - intros (p & a & b & -> & Hp & Hs & Ha & Hne). rewrite filename_app; [|done|].
    + split; [done|]. destruct a as [|c a]; [done|]. cbn [app tail]. apply elem_of_app. right. left.
    + rewrite !elem_of_app in *. intros [H|[H|H]]; [tauto| |tauto]. by apply elem_of_list_singleton in H.
Qed.

Lemma included_listed dir x : listed dir x (included dir x).
Proof.
  unfold included. destruct (has_extension x) eqn:Hx.
  - apply has_extension_spec in Hx. unfold resolve. destruct (decide (slash ∈ x)); [by apply listed_path|].
    destruct (last dir) as [c|] eqn:Hl.
    + destruct (decide (c = slash)) as [-> |Hc]; [by apply listed_root|]. apply listed_file; [done|done| |].
      * intros ->. done.
      * rewrite Hl. congruence.
    + apply listed_here; [done|done|]. by apply last_None.
  - apply listed_not. rewrite <- has_extension_spec. by rewrite Hx.
Qed.

Theorem get_includes_ok dir cut s :
  exists ns ls, names cut s ns /\ Forall2 (listed dir) ns ls /\ get_includes (length s) dir cut s = Ok (concat ls).
Proof.
  destruct (names_total cut s) as [ns Hns]. exists ns, (map (included dir) ns). split; [done|]. split.
  - clear Hns. induction ns; constructor; [apply included_listed|done].
  - by apply get_includes_names.
Qed.

Lemma listed_eq dir x l : listed dir x l -> l = included dir x.
Proof.
  unfold included, resolve. destruct 1 as [x H|x H H1|x H H1 H2 H3|x H H1 ->|x H H1 H2].
  - destruct (has_extension x) eqn:Hx; [|done]. by apply has_extension_spec in Hx.
  - apply has_extension_spec in H. rewrite H. by rewrite decide_True.
  - apply has_extension_spec in H. rewrite H. rewrite decide_False by done.
    destruct (last dir) as [c|] eqn:Hl; [|by apply last_None in Hl]. rewrite decide_False; [done|]. intros ->. done.
  - apply has_extension_spec in H. rewrite H. by rewrite decide_False.
  - apply has_extension_spec in H. rewrite H. rewrite decide_False by done. rewrite H2. by rewrite decide_True.
Qed.

Theorem get_includes_all dir cut s ns ls :
  names cut s ns -> Forall2 (listed dir) ns ls -> get_includes (length s) dir cut s = Ok (concat ls).
Proof.
  intros Hns Hls. rewrite (get_includes_names dir cut s ns) by done. do 2 f_equal. clear Hns.
  induction Hls as [|x l ns ls H _ IH]; [done|]. cbn [map]. by rewrite IH, (listed_eq _ _ _ H).
Qed.

(** *** Lines *)

Section lines.
  Context (cut : text) (Hcut : cut <> []) (Hslash : head cut <> Some slash) (Hspace : head cut <> Some " "%char).

  Lemma code_cons c x : code (c :: x) -> code x /\ c <> nl /\ c <> hash /\ (c = slash -> head x <> Some slash /\ head x <> Some star).
  Proof.
    unfold code. rewrite !not_elem_of_cons, !occurs_two. intros ([? ?] & [? ?] & K1 & K2). split; [tauto|].
    split; [congruence|]. split; [congruence|]. intros ->. tauto.
  Qed.

  Lemma names_code x s ns : code x -> ~ occurs cut x -> names cut s ns -> names cut (x ++ nl :: s) ns.
  Proof.
    intros Hx Ho Hs. induction x as [|c x IH]; [apply names_char; [done|done|by right|done]|].
    assert (Hnl : nl ∉ c :: x) by apply Hx. apply code_cons in Hx as (Hx & H1 & H2 & H3).
    assert (Ho' : ~ occurs cut x) by (intros H; apply Ho; rewrite occurs_cons by done; by right).
    destruct (decide (c = slash)) as [-> |Hc].
    - destruct (H3 eq_refl). cbn [app]. apply names_slash; [by destruct x..|by apply IH].
    - destruct (decide (head cut = Some c)) as [Hh|Hh].
      + by apply names_line.
      + cbn [app]. apply names_char; [done|done|by left|by apply IH].
  Qed.

  Lemma names_code_cut x s : code x -> occurs cut x -> s = [] \/ head s = Some nl -> names cut (x ++ s) [].
  Proof.
    intros Hx Ho Hs. induction x as [|c x IH]; [by apply occurs_nil in Ho|].
    assert (Hnl : nl ∉ c :: x) by apply Hx. apply code_cons in Hx as (Hx & H1 & H2 & H3).
    destruct (decide (head cut = Some c)) as [Hh|Hh].
    - apply names_cut; try done. by intros ->.
    - assert (Ho' : occurs cut x).
      { rewrite occurs_cons in Ho by done. destruct Ho as [[post Hp]|Ho]; [|done]. destruct cut as [|c' cut']; [done|].
        injection Hp as -> _. done. }
      cbn [app]. destruct (decide (c = slash)) as [-> |Hc].
      + destruct (H3 eq_refl). apply names_slash; [..|by apply IH]; destruct x; try done; cbn; by destruct Hs as [-> | ->].
      + apply names_char; [done|done|by left|by apply IH].
  Qed.

  Theorem names_lines s ns : lines cut s ns -> names cut s ns.
  Proof.
    induction 1 as [|x s ns H1 H2 H IH|sp x s ns H1 H2 H IH|x y s ns H1 H2 H3 H IH|w s ns H1 H2 H3 H IH|w x s ns H1 H2 H3 H4 H5 H IH
      |o c x y s ns H1 H2 H3 H4 H IH|x s H1 H2 H3].
    - constructor.
    - by apply names_code.
    - assert (Hn : names cut ([slash; slash] ++ x ++ nl :: s) ns) by by apply names_line_comment.
      clear - H1 Hn Hspace. induction H1 as [|c sp <- _ IH]; [done|]. cbn [app]. apply names_char; [done|done|by left|done].
    - apply names_block_comment; [done|]. by apply names_code.
    - apply names_directive; auto.
    - apply names_directive; auto. by apply names_code.
    - apply (names_include cut " "%char [] o c x); [by left|constructor|done|done|]. by apply names_code.
    - by apply names_code_cut.
  Qed.
End lines.

Theorem get_includes_lines dir cut s ns ls :
  cut <> [] -> head cut <> Some slash -> head cut <> Some " "%char -> lines cut s ns -> Forall2 (listed dir) ns ls ->
  get_includes (length s) dir cut s = Ok (concat ls).
Proof. intros H1 H2 H3 Hl. apply get_includes_all. by apply names_lines. Qed.

(** *** Where C++ sees other includes *)
Local Notation "⌜ s ⌝" := (list_ascii_of_string s%string).

Definition found (dir cut s : text) : res (list text) := get_includes (length s) dir cut s.

Ltac a_directive :=
  lazymatch goal with
  | |- marks _ _ => constructor
  | |- blanks _ => unfold blanks; a_directive
  | |- Forall _ [] => constructor
  | |- Forall _ _ => apply Forall_cons; split; [first [by left | by right]|a_directive]
  | _ => apply (bool_decide_unpack _); by vm_compute
  end.

(** No space after the word. *)
Lemma no_space :
  exists line, include_directive line ⌜"a.hpp"⌝ /\ found ⌜"src"⌝ ⌜"namespace"⌝ (line ++ [nl]) = Ok [].
Proof.
  exists ⌜"#include<a.hpp>"⌝. split; [|by vm_compute].
  apply (an_include [] [] [] opening closing ⌜"a.hpp"⌝ []); a_directive.
Qed.

(** A tab after the word. *)
Lemma tab :
  exists line, include_directive line ⌜"a.hpp"⌝ /\ found ⌜"src"⌝ ⌜"namespace"⌝ (line ++ [nl]) = Ok [].
Proof.
  exists (⌜"#include"⌝ ++ [ascii_of_nat 9] ++ ⌜"<a.hpp>"⌝). split; [|by vm_compute].
  apply (an_include [] [] [ascii_of_nat 9] opening closing ⌜"a.hpp"⌝ []); a_directive.
Qed.

(** A space before the word. *)
Lemma space_before :
  exists line, include_directive line ⌜"a.hpp"⌝ /\ found ⌜"src"⌝ ⌜"namespace"⌝ (line ++ [nl]) = Ok [].
Proof.
  exists ⌜"# include <a.hpp>"⌝. split; [|by vm_compute].
  apply (an_include [] [" "%char] [" "%char] opening closing ⌜"a.hpp"⌝ []); a_directive.
Qed.

(** No extension. *)
Lemma no_extension :
  exists line, include_directive line ⌜"config"⌝ /\ found ⌜"src"⌝ ⌜"namespace"⌝ (line ++ [nl]) = Ok [].
Proof.
  exists ⌜"#include ""config"""⌝. split; [|by vm_compute].
  apply (an_include [] [] [" "%char] quote quote ⌜"config"⌝ []); a_directive.
Qed.

(** The text of a string literal. *)
Lemma in_literal :
  exists line, (forall x, ~ include_directive line x) /\ found ⌜"src"⌝ ⌜"namespace"⌝ (line ++ [nl]) = Ok [⌜"src/a.hpp"⌝].
Proof.
  exists ⌜"f(""#include <a.hpp>"");"⌝. split; [|by vm_compute].
  intros x H. remember (list_ascii_of_string _) as line eqn:Heq in H.
  destruct H as [b1 b2 b3 o c y z Hb1 _ _ _ _ _ _]. destruct b1 as [|a b1]; [done|].
  injection Heq as -> _. apply Forall_cons in Hb1 as [[?|?] _]; done.
Qed.

(** A string literal like the start of a comment. *)
Lemma literal_comment :
  exists line, include_directive line ⌜"a.hpp"⌝
    /\ found ⌜"src"⌝ ⌜"using"⌝ (⌜"const char* c{""/*""};"⌝ ++ [nl] ++ line ++ [nl]) = Ok [].
Proof.
  exists ⌜"#include ""a.hpp"""⌝. split; [|by vm_compute].
  apply (an_include [] [] [" "%char] quote quote ⌜"a.hpp"⌝ []); a_directive.
Qed.

(** A comment which begins on a line with the first character of the cutoff. *)
Lemma comment_after_cutoff_character :
  found ⌜"src"⌝ ⌜"namespace"⌝ (⌜"int n; /*"⌝ ++ [nl] ++ ⌜"#include ""a.hpp"""⌝ ++ [nl] ++ ⌜"*/"⌝ ++ [nl]) = Ok [⌜"src/a.hpp"⌝].
Proof. by vm_compute. Qed.

(** A comment which begins directly after a directive. *)
Lemma comment_after_directive :
  found ⌜"src"⌝ ⌜"namespace"⌝ (⌜"#endif/*"⌝ ++ [nl] ++ ⌜"#include ""a.hpp"""⌝ ++ [nl] ++ ⌜"*/"⌝ ++ [nl]) = Ok [⌜"src/a.hpp"⌝].
Proof. by vm_compute. Qed.
