(** Histogram clustering (enc/cluster.h) and the entropy-code set built from it
    (brunsli_encode.cc:554-601). *)
From Verif Require Import Base EntropyModel CoefModel.

(** brunsli_encode.cc:511-536: class Histogram: 18 counts.  [total_count_] is always the
    sum of the counts and is not stored separately; counts are unbounded integers here (int in the
    code: the number of symbols of a file is below 2^31 because of the block limit). *)
Notation hist := (list Z).
Definition hzero : hist := repeat 0 18.
Fixpoint hadd (a b : hist) : hist :=
  match a, b with x :: a', y :: b' => x + y :: hadd a' b' | _, _ => [] end.
Definition htotal (h : hist) : Z := sumZ h.

(** The floating point cost decisions.  Every cost is an arbitrary number computed by an arbitrary
    function: finite doubles are a finite ordered set, so their order is that of some integers.
    The constant 1e99 of the code is treated as larger than every cost. *)
Record costs := mkCosts {
  c_pop : hist -> Z;                       (* PopulationCost *)
  c_base : Z -> Z -> Z -> Z -> Z;          (* cluster.h:68-70 from the sizes and bit costs *)
  c_below : Z -> Z -> Z -> bool;           (* cluster.h:84 with a non-empty queue *)
  c_add : Z -> Z -> Z;                     (* cluster.h:90 *)
  c_neg : Z -> bool;                       (* cost_diff < 0 *)
  c_dist : hist -> hist -> Z -> Z }.       (* HistogramBitCostDistance, cluster.h:183-193 *)

(** struct HistogramPair and operator< (cluster.h:24-38). *)
Record hpair := mkPair { hp_1 : nat; hp_2 : nat; hp_combo : Z; hp_diff : Z }.
Definition pair_lt (p1 p2 : hpair) : bool :=
  if negb (hp_diff p1 =? hp_diff p2) then hp_diff p2 <? hp_diff p1
  else (hp_2 p2 - hp_1 p2 <? hp_2 p1 - hp_1 p1)%nat.

(** The arrays the functions work on: histograms, their bit_cost_, cluster_size. *)
Record cstate := mkCl { cl_out : list hist; cl_cost : list Z; cl_size : list Z }.

(** CompareAndPushToQueue (cluster.h:54-100); None is an access outside the arrays. *)
Definition compare_and_push (C : costs) (st : cstate) (i1 i2 : nat) (pairs : list hpair) : option (list hpair) :=
  if (i1 =? i2)%nat then Some pairs
  else
    let '(i1, i2) := if (i2 <? i1)%nat then (i2, i1) else (i1, i2) in
    let? h1 := nth_error (cl_out st) i1 in let? h2 := nth_error (cl_out st) i2 in
    let? b1 := nth_error (cl_cost st) i1 in let? b2 := nth_error (cl_cost st) i2 in
    let? s1 := nth_error (cl_size st) i1 in let? s2 := nth_error (cl_size st) i2 in
    let base := c_base C s1 s2 b1 b2 in
    let combo :=
      if htotal h1 =? 0 then Some b2
      else if htotal h2 =? 0 then Some b1
      else
        let cc := c_pop C (hadd h1 h2) in
        if match pairs with [] => true | f :: _ => c_below C cc base (hp_diff f) end then Some cc else None in
    match combo with
    | None => Some pairs
    | Some cc =>
        let p := mkPair i1 i2 cc (c_add C base cc) in
        match pairs with
        | f :: r => if pair_lt f p then Some (p :: r ++ [f]) else Some (pairs ++ [p])
        | [] => Some [p]
        end
    end.

(** The loops that push several pairs (cluster.h:121-126 and 172-174). *)
Fixpoint push_with (C : costs) (st : cstate) (i : nat) (cl : list nat) (pairs : list hpair) : option (list hpair) :=
  match cl with [] => Some pairs | j :: r => let? p := compare_and_push C st i j pairs in push_with C st i r p end.
Fixpoint push_all (C : costs) (st : cstate) (cl : list nat) (pairs : list hpair) : option (list hpair) :=
  match cl with [] => Some pairs | i :: r => let? p := push_with C st i r pairs in push_all C st r p end.

(** std::sort and std::unique (cluster.h:109-112, 201-204): the distinct values in increasing order. *)
Fixpoint insert_uniq (x : nat) (l : list nat) : list nat :=
  match l with [] => [x] | y :: r => if (x <? y)%nat then x :: l else if (x =? y)%nat then l else y :: insert_uniq x r end.
Definition uniq (l : list nat) : list nat := fold_right insert_uniq [] l.

(** cluster.h:145-151: erase the first cluster not below best_idx2. *)
Fixpoint erase_from (b : nat) (cl : list nat) : list nat :=
  match cl with [] => [] | c :: r => if (b <=? c)%nat then r else c :: erase_from b r end.

(** cluster.h:153-170: the in-place removal of the pairs that meet (a, b).  [kept] is the
    array up to copy_to and [f] the current value of pairs.front(); once something is kept, the
    front is the head of [kept]. *)
Definition meets (a b : nat) (p : hpair) : bool :=
  (hp_1 p =? a)%nat || (hp_2 p =? a)%nat || (hp_1 p =? b)%nat || (hp_2 p =? b)%nat.
Fixpoint compact (a b : nat) (f : hpair) (kept : list hpair) (ps : list hpair) : list hpair :=
  match ps with
  | [] => kept
  | p :: r =>
      if meets a b p then compact a b f kept r
      else
        match kept with
        | [] => if pair_lt f p then compact a b f [f] r else compact a b p [p] r
        | _ :: kt => if pair_lt f p then compact a b p (p :: kt ++ [f]) r else compact a b f (kept ++ [p]) r
        end
  end.

(** HistogramCombine's loop (cluster.h:128-175).  [relaxed] is false while the threshold is 0 and
    true once it is 1e99. *)
Fixpoint combine_loop (C : costs) (fuel : nat) (relaxed : bool) (maxc : nat) (st : cstate) (syms clusters : list nat) (pairs : list hpair)
  : option (cstate * list nat * nat) :=
  let minc := if relaxed then maxc else 1%nat in
  if (length clusters <=? minc)%nat then Some (st, syms, length clusters)
  else
    match fuel with
    | O => None
    | S fuel' =>
        match pairs with
        | [] => None (* pairs[0] of an empty vector *)
        | best :: _ =>
            if negb relaxed && negb (c_neg C (hp_diff best)) then combine_loop C fuel' true maxc st syms clusters pairs
            else
              let a := hp_1 best in let b := hp_2 best in
              let? ha := nth_error (cl_out st) a in let? hb := nth_error (cl_out st) b in
              let? sa := nth_error (cl_size st) a in let? sb := nth_error (cl_size st) b in
              let st' := mkCl (upd (cl_out st) a (hadd ha hb)) (upd (cl_cost st) a (hp_combo best)) (upd (cl_size st) a (sa + sb)) in
              let syms' := map (fun s => if (s =? b)%nat then a else s) syms in
              let clusters' := erase_from b clusters in
              let? pairs' := push_with C st' a clusters' (compact a b best [] pairs) in
              combine_loop C fuel' relaxed maxc st' syms' clusters' pairs'
        end
    end.

(** HistogramCombine (cluster.h:102-177) on the symbols of a slice. *)
Definition histogram_combine (C : costs) (maxc : nat) (st : cstate) (syms : list nat) : option (cstate * list nat * nat) :=
  let clusters := uniq syms in
  let? pairs := push_all C st clusters [] in
  combine_loop C (S (S (length clusters))) false maxc st syms clusters pairs.

(** HistogramRemap (cluster.h:197-230). *)
Fixpoint best_of (C : costs) (st : cstate) (h : hist) (ks : list nat) (best : nat) (bits : Z) : option nat :=
  match ks with
  | [] => Some best
  | k :: r =>
      let? o := nth_error (cl_out st) k in let? c := nth_error (cl_cost st) k in
      let d := c_dist C h o c in
      if d <? bits then best_of C st h r k d else best_of C st h r best bits
  end.
Fixpoint remap_syms (C : costs) (st : cstate) (all : list nat) (prev : nat) (ins : list hist) : option (list nat) :=
  match ins with
  | [] => Some []
  | h :: r =>
      let? o := nth_error (cl_out st) prev in let? c := nth_error (cl_cost st) prev in
      let? b := best_of C st h all prev (c_dist C h o c) in
      let? t := remap_syms C st all b r in Some (b :: t)
  end.
Definition clear_all (out : list hist) (ks : list nat) : list hist := fold_left (fun o k => upd o k hzero) ks out.
Fixpoint add_all (out : list hist) (ins : list hist) (syms : list nat) : option (list hist) :=
  match ins, syms with
  | [], [] => Some out
  | h :: r, s :: t => let? o := nth_error out s in add_all (upd out s (hadd o h)) r t
  | _, _ => None
  end.
Definition histogram_remap (C : costs) (ins : list hist) (st : cstate) (syms : list nat) : option (cstate * list nat) :=
  let all := uniq syms in
  match syms with
  | [] => Some (st, [])
  | s0 :: _ =>
      let? syms' := remap_syms C st all s0 ins in
      let? out' := add_all (clear_all (cl_out st) all) ins syms' in
      Some (mkCl out' (cl_cost st) (cl_size st), syms')
  end.

(** A slice of an array and writing it back (pointer arithmetic on [symbols]). *)
Definition slice {A} (l : list A) (off len : nat) : list A := firstn len (skipn off l).
Definition put_slice {A} (l : list A) (off : nat) (s : list A) : list A := firstn off l ++ s ++ skipn (off + length s) l.

(** cluster.h:270-277: combining inside each block of [nctx] histograms. *)
Fixpoint combine_blocks (C : costs) (maxc nctx : nat) (blocks : list nat) (st : cstate) (syms : list nat) : option (cstate * list nat) :=
  match blocks with
  | [] => Some (st, syms)
  | i :: r =>
      let? x := histogram_combine C maxc st (slice syms (i * nctx) nctx) in
      let '(st', s', _) := x in
      combine_blocks C maxc nctx r st' (put_slice syms (i * nctx) s')
  end.

(** Combine followed by the conditional remap (cluster.h:288-299, 305-315). *)
Definition combine_remap (C : costs) (ins : list hist) (maxc off len : nat) (st : cstate) (syms : list nat) : option (cstate * list nat * nat) :=
  let? x := histogram_combine C maxc st (slice syms off len) in
  let '(st', s', n) := x in
  if ((2 <=? n) && (n <? 24))%nat then
    let? y := histogram_remap C (slice ins off len) st' s' in
    let '(st'', s'') := y in
    Some (st'', put_slice syms off s'', n)
  else Some (st', put_slice syms off s', n).

(** cluster.h:281-300: the block groups. *)
Fixpoint combine_groups (C : costs) (ins : list hist) (maxc nctx : nat) (offs : list nat) (st : cstate) (syms : list nat) (total : nat)
  : option (cstate * list nat * nat) :=
  match offs with
  | [] => Some (st, syms, total)
  | o :: r =>
      let off := (o * nctx)%nat in
      let next := match r with [] => length ins | o' :: _ => (o' * nctx)%nat end in
      let? x := combine_remap C ins maxc off (next - off) st syms in
      let '(st', syms', n) := x in
      combine_groups C ins maxc nctx r st' syms' (total + n)
  end.

(** HistogramReindex (cluster.h:234-252): symbols are renumbered in the order of their first
    occurrence. *)
Fixpoint firsts (seen : list nat) (l : list nat) : list nat :=
  match l with [] => [] | x :: r => if existsb (Nat.eqb x) seen then firsts seen r else x :: firsts (x :: seen) r end.
Fixpoint index_of (x : nat) (l : list nat) : nat :=
  match l with [] => O | y :: r => if (x =? y)%nat then O else S (index_of x r) end.
Definition reindex (out : list hist) (syms : list nat) : list hist * list nat :=
  let keys := firsts [] syms in (map (fun k => nth k out hzero) keys, map (fun s => index_of s keys) syms).

(** ClusterHistograms (cluster.h:258-321). *)
Definition cluster_histograms (C : costs) (ins : list hist) (nctx nblocks : nat) (offs : list nat) (maxh : nat) : option (list hist * list nat) :=
  let n := (nctx * nblocks)%nat in
  let st := mkCl ins (map (c_pop C) ins) (repeat 1 n) in
  let syms := seq 0 n in
  let? x := (if (1 <? nctx)%nat then combine_blocks C maxh nctx (seq 0 nblocks) st syms else Some (st, syms)) in
  let '(st, syms) := x in
  let? y := (if (1 <? length offs)%nat then combine_groups C ins maxh nctx offs st syms 0 else Some (st, syms, O)) in
  let '(st, syms, num) := y in
  let? z := (if ((length offs <=? 1) || (maxh <? num))%nat then combine_remap C ins maxh 0 n st syms else Some (st, syms, num)) in
  let '(st, syms, _) := z in
  Some (reindex (cl_out st) syms).

(** EntropySource::AddCode (brunsli_encode.cc:559-561, 530-534), called for every symbol of the DC and
    AC data streams (624-637); None is an access outside the histograms or their counts. *)
Definition add_code (hs : list hist) (h s : Z) : option (list hist) :=
  let? c := zget hs h in let? v := zget c s in Some (upd hs (Z.to_nat h) (upd c (Z.to_nat s) (v + 1))).
Fixpoint collect (its : list citem) (hs : list hist) : option (list hist) :=
  match its with
  | [] => Some hs
  | CSym h s :: r => let? hs' := add_code hs h s in collect r hs'
  | _ :: r => collect r hs
  end.

(** EntropySource::Resize and Finish, EntropyCodes (brunsli_encode.cc:554-557, 563-585), with
    kNumAvrgContexts = 9 and at most 256 clusters. *)
Definition entropy_codes (C : costs) (its : list citem) (num_bands : nat) (offs : list nat) : option (list hist * list nat) :=
  let? hs := collect its (repeat hzero (9 * num_bands)) in cluster_histograms C hs 9 num_bands offs 256.
