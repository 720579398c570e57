(** Model of Source/sequoia/Algorithms/Algorithms.hpp.

    A range [begin, end) is the list of its elements; an iterator is its distance from begin.
    [comp]/[proj] are the comparator and the projection; that they do not throw and do not
    depend on anything but their arguments is assumed. *)
From stdpp Require Import list.
From Verif.Base Require Import Outcome.
Local Open Scope res_scope.

Section algo.
  Context {A B : Type} (comp : B -> B -> bool) (proj : A -> B).

  (** Algorithms.hpp L23-34, [bubble_up(begin, current, comp, proj)].  The recursion at L32 is on
      the parent, hence the fuel. *)
  Fixpoint bubble_up_go (fuel : nat) (l : list A) (current : nat) : res (list A) :=
    match fuel with
    | O => NoFuel
    | S fuel' =>
      if decide (current = 0) then Ok l                                     (* L26 *)
      else
        let parent := (current - 1) / 2 in                                  (* L28 *)
        let? p := rget l parent in
        let? c := rget l current in
        if comp (proj p) (proj c) then                                      (* L29 *)
          let? l' := rswap l parent current in                              (* L31 *)
          bubble_up_go fuel' l' parent                                      (* L32 *)
        else Ok l
    end.

  Definition bubble_up (l : list A) (current : nat) : res (list A) :=
    bubble_up_go (S current) l current.

  (** Algorithms.hpp L36-58, [bubble_down(begin, current, end, comp, proj)]; [len] is
      distance(begin, end), which may be shorter than the underlying list. *)
  Fixpoint bubble_down_go (fuel : nat) (l : list A) (current len : nat) : res (list A) :=
    match fuel with
    | O => NoFuel
    | S fuel' =>
      if decide (len <= 1) then Ok l                                        (* L39 *)
      else if decide (2 * (current + 1) < len) then                         (* L41 *)
        let rightChild := 2 * (current + 1) in                              (* L43 *)
        let leftChild := rightChild - 1 in                                  (* L44 *)
        let? r := rget l rightChild in
        let? lf := rget l leftChild in
        let dominantChild :=
          if comp (proj r) (proj lf) then leftChild else rightChild in      (* L46 *)
        let? c := rget l current in
        let? d := rget l dominantChild in
        if comp (proj c) (proj d) then                                      (* L47 *)
          let? l' := rswap l dominantChild current in                       (* L49 *)
          bubble_down_go fuel' l' dominantChild len                         (* L50 *)
        else Ok l
      else if decide (2 * current + 1 < len) then                           (* L53 *)
        let leftChild := 2 * current + 1 in                                 (* L55 *)
        let? c := rget l current in
        let? lf := rget l leftChild in
        if comp (proj c) (proj lf) then rswap l leftChild current           (* L56 *)
        else Ok l
      else Ok l
    end.

  Definition bubble_down (l : list A) (current len : nat) : res (list A) :=
    bubble_down_go (S len) l current len.

  (** Algorithms.hpp L65-70: the loop of [make_heap], [k] iterations remaining. *)
  Fixpoint make_heap_loop (l : list A) (current k : nat) : res (list A) :=
    match k with
    | O => Ok l                                                             (* L66 *)
    | S k' =>
      let? l' := bubble_up l current in                                     (* L68 *)
      make_heap_loop l' (current + 1) k'                                    (* L69 *)
    end.

  (** Algorithms.hpp L60-71, [make_heap(begin, begin + len)]. *)
  Definition make_heap (l : list A) (len : nat) : res (list A) :=
    if decide (len <= 1) then Ok l                                          (* L63 *)
    else make_heap_loop l 1 (len - 1).

  (** Algorithms.hpp L85-90: the loop of [sort]. *)
  Fixpoint sort_loop (l : list A) (len : nat) : res (list A) :=
    match len with
    | O => Ok l                                                             (* L85 *)
    | S len' =>
      let? l1 := rswap l 0 len' in                                          (* L87 *)
      let? l2 := bubble_down l1 0 len' in                                   (* L88 *)
      sort_loop l2 len'                                                     (* L89 *)
    end.

  (** Algorithms.hpp L79-91, [sort(begin, end, comp, proj)]. *)
  Definition sort (l : list A) : res (list A) :=
    let len := length l in
    if decide (len <= 1) then Ok l                                          (* L82 *)
    else
      let? h := make_heap l len in                                          (* L84 *)
      sort_loop h len.

  (** [std::ranges::merge] with projections, as specified by the C++ standard ([alg.merge]): take
      from the second range only if its head is strictly less than the head of the first. *)
  Fixpoint merge (l1 : list A) : list A -> list A :=
    fix merge_aux (l2 : list A) : list A :=
      match l1, l2 with
      | [], _ => l2
      | _, [] => l1
      | x :: l1', y :: l2' =>
        if comp (proj y) (proj x) then y :: merge_aux l2' else x :: merge l1' l2
      end.

  (** Algorithms.hpp L102-114, the buffered [stable_sort(first, last, out, compare, proj)].
      The range and the buffer [out, ...) are separate lists and are both returned.  The two
      recursive calls at L110-111 work on the two parts of the range with the buffer advanced
      accordingly; L112 writes the merge to the buffer and L113 copies it back.  Writing past the
      end of the buffer is UB. *)
  Fixpoint stable_sort_go (fuel : nat) (l out : list A) : res (list A * list A) :=
    match fuel with
    | O => NoFuel
    | S fuel' =>
      let dist := length l in                                               (* L106 *)
      if decide (dist < 2) then Ok (l, out)                                 (* L107 *)
      else if decide (length out < dist) then UB
      else
        let half := dist / 2 in                                             (* L109 *)
        let? r1 := stable_sort_go fuel' (take half l) out in                (* L110 *)
        let? r2 := stable_sort_go fuel' (drop half l) (drop half r1.2) in   (* L111 *)
        let out2 := take half r1.2 ++ r2.2 in
        let m := merge r1.1 r2.1 in                                         (* L112 *)
        let out3 := m ++ drop dist out2 in
        Ok (take dist out3, out3)                                           (* L113 *)
    end.

  Definition stable_sort_buffered (l out : list A) : res (list A * list A) :=
    stable_sort_go (S (length l)) l out.

  (** Algorithms.hpp L116-129: [stable_sort(first, last, compare, proj)] allocates the buffer:
      either value-initialized elements (L123; [dflt] is the value-initialized element) or a copy
      of the range (L124). *)
  Definition stable_sort (dflt : option A) (l : list A) : res (list A) :=
    let buffer := match dflt with
                  | Some d => replicate (length l) d
                  | None => l
                  end in
    let? r := stable_sort_buffered l buffer in
    Ok r.1.

  (** Algorithms.hpp L148-149: the first loop of [cluster]: skip the leading elements equal to the
      first; returns the index where it stops. *)
  Fixpoint cluster_skip (x : A) (l : list A) : nat :=
    match l with
    | [] => 0
    | y :: l' => if comp (proj y) (proj x) then S (cluster_skip x l') else 0
    end.

  (** Algorithms.hpp L153-162: the second loop of [cluster]; [k] iterations remain.  Note that
      [*begin] is re-read at each iteration (L155). *)
  Fixpoint cluster_loop (l : list A) (current endOfCluster k : nat) : res (list A * nat) :=
    match k with
    | O => Ok (l, endOfCluster)                                             (* L153 *)
    | S k' =>
      let? c := rget l current in
      let? b := rget l 0 in
      if comp (proj c) (proj b) then                                        (* L155 *)
        let? l' := rswap l endOfCluster current in                          (* L157 *)
        cluster_loop l' (current + 1) (endOfCluster + 1) k'                 (* L158, L161 *)
      else cluster_loop l (current + 1) endOfCluster k'                     (* L161 *)
    end.

  (** Algorithms.hpp L142-165, [cluster(begin, end, comp, proj)]. *)
  Fixpoint cluster_go (fuel : nat) (l : list A) : res (list A) :=
    match fuel with
    | O => NoFuel
    | S fuel' =>
      match l with
      | [] => Ok []                                                         (* L146 *)
      | x :: _ =>
        let current := cluster_skip x l in                                  (* L148-149 *)
        let? r := cluster_loop l current current (length l - current) in    (* L151-162 *)
        let? tl := cluster_go fuel' (drop r.2 r.1) in                       (* L164 *)
        Ok (take r.2 r.1 ++ tl)
      end
    end.

  Definition cluster (l : list A) : res (list A) := cluster_go (S (length l)) l.
End algo.
