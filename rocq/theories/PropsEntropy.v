(** C10-C13: adaptive probabilities, arithmetic coder, ANS coder, interleaved
    stream. *)
From Verif Require Import Base Prob EntropyModel EntropyProofs.

(** C10.  After any history of bits the state is defined (no out-of-range table
    lookup), within its storage, the next update does not wrap, and the
    new probability is the fixed-point quotient count/total. *)
Theorem C10_probability_valid_forever :
  forall (init : Z) (history : list bool) (bit : bool),
    0 <= init <= 255 ->
    exists p q,
      prob_run (prob_init init) history = Some p /\
      prob_add_opt p bit = Some q /\
      0 <= p_prob8 p <= 255 /\ 3 <= p_total p <= 253 /\ 0 <= p_count p < 2 ^ 16 /\
      0 <= p_prob8 q <= 255 /\ 3 <= p_total q <= 253 /\ 0 <= p_count q < 2 ^ 16 /\
      let total := p_total p + 1 in
      let count := p_count p + (if bit then 1 else 256) in
      count < 2 ^ 16 /\ count * (2 ^ 17 / total) < 2 ^ 32 /\
      p_prob8 q = count * (2 ^ 17 / total) / 2 ^ 17 /\
      (total < 254 -> p_total q = total /\ p_count q = count) /\
      (total = 254 -> p_total q = 127 /\ p_count q = count / 2).
Proof.
  intros init h bit Hi.
  destruct (prob_run_ok h (prob_init init) (prob_init_ok init Hi)) as (p & Ep & Hp).
  destruct (prob_add_ok p bit Hp) as (q & Eq & Hq).
  exists p, q. split; [exact Ep|]. split; [exact Eq|].
  pose proof (prob_add_spec p bit Hp) as S. cbv zeta in S. destruct S as (E & S2 & S3 & S4 & S5).
  rewrite Eq in E. injection E as E.
  destruct Hp as (P1 & P2 & P3). destruct Hq as (Q1 & Q2 & Q3).
  split; [exact P1|]. split; [lia|]. split; [destruct bit; lia|].
  split; [exact Q1|]. split; [lia|]. split; [lia|]. cbv zeta.
  split; [lia|]. split; [apply S5|].
  rewrite E. unfold fixed_quotient in *.
  destruct (Z.eqb_spec (p_total p + 1) 254); cbn [p_prob8 p_total p_count]; repeat split; try lia.
Qed.
Print Assumptions C10_probability_valid_forever.

Example C10_case :
  match prob_run (prob_init 134) (repeat false 700 ++ repeat true 3) with
  | Some p => (p_prob8 p =? 251) && (p_total p <=? 253) | None => false end = true.
Proof. vm_compute. reflexivity. Qed.

(** C11.  Bits only.  [ask_bits ps] is the decoder that requests one bit per
    probability and collects the answers. *)
Fixpoint ask_bits (ps : list Z) : eprog (list bool) :=
  match ps with
  | [] => ERet []
  | p :: r => EBit p (fun b => ebind (ask_bits r) (fun l => ERet (b :: l)))
  end.

Lemma eaccept_ebind {A B} (p : eprog A) (f : A -> eprog B) : forall l,
  eaccept (ebind p f) l = match eaccept p l with Some (a, r) => eaccept (f a) r | None => None end.
Proof.
  induction p as [a| |q k IH|c k IH|n k IH]; intros l; cbn [ebind eaccept]; try reflexivity.
  - destruct l as [|[q' b|c' s|n' v] l]; try reflexivity. destruct (q =? q'); [apply IH|reflexivity].
  - destruct l as [|[q' b|c' s|n' v] l]; try reflexivity. destruct (list_eqb c c'); [apply IH|reflexivity].
  - destruct l as [|[q' b|c' s|n' v] l]; try reflexivity. destruct (Nat.eqb n n'); [apply IH|reflexivity].
Qed.

Theorem C11_arithmetic_coder_round_trip :
  forall (l : list (Z * bool)),
    Forall (fun pb => 0 <= fst pb <= 255) l ->
    edecode (ask_bits (map fst l)) (encode_items (map (fun pb => IBit (fst pb) (snd pb)) l))
      = Some (map snd l).
Proof.
  intros l H. apply entropy_roundtrip.
  - unfold items_ok. rewrite Forall_map. exact H.
  - clear H. induction l as [|[p b] l IH]; cbn [map ask_bits eaccept fst snd]; [reflexivity|].
    rewrite Z.eqb_refl, eaccept_ebind, IH. reflexivity.
Qed.
Print Assumptions C11_arithmetic_coder_round_trip.

(** The coding interval never becomes empty, whatever else is interleaved. *)
Theorem C11_interval_never_empty :
  forall (l : list item), items_ok l ->
    let d := fold_left add_item l ds_init in
    0 <= ds_low d < ds_high d /\ ds_high d < 2 ^ 32.
Proof. exact interval_nonempty. Qed.
Print Assumptions C11_interval_never_empty.

Example C11_case : let l := map (fun i => (Z.of_nat i * 37 mod 256, Nat.even (i * i / 3))) (seq 0 200) in
  edecode (ask_bits (map fst l)) (encode_items (map (fun pb => IBit (fst pb) (snd pb)) l)) = Some (map snd l)
  /\ (length (encode_items (map (fun pb => IBit (fst pb) (snd pb)) l)) > 10)%nat.
Proof. split; [vm_compute; reflexivity|vm_compute; lia]. Qed.

(** C12.  Symbols only; a table is any list of non-negative counts summing to
    1024. *)
Fixpoint ask_syms (ts : list (list Z)) : eprog (list Z) :=
  match ts with
  | [] => ERet []
  | t :: r => ESym t (fun s => ebind (ask_syms r) (fun l => ERet (s :: l)))
  end.

Theorem C12_ans_round_trip :
  forall (l : list (list Z * Z)),
    Forall (fun ts => Forall (fun c => 0 <= c) (fst ts) /\ sumZ (fst ts) = 1024 /\
                      0 <= snd ts /\ 0 < nth (Z.to_nat (snd ts)) (fst ts) 0) l ->
    edecode (ask_syms (map fst l)) (encode_items (map (fun ts => ISym (fst ts) (snd ts)) l))
      = Some (map snd l).
Proof.
  intros l H. apply entropy_roundtrip.
  - unfold items_ok. rewrite Forall_map. eapply Forall_impl; [|exact H]. cbv beta.
    intros [t s] (H1 & H2 & H3 & H4). cbn [fst snd] in *. repeat split; assumption.
  - clear H. induction l as [|[t s] l IH]; cbn [map ask_syms eaccept fst snd]; [reflexivity|].
    rewrite (proj2 (list_eqb_eq t t) eq_refl), eaccept_ebind, IH. reflexivity.
Qed.
Print Assumptions C12_ans_round_trip.

(** Every ANS step stays within 32 bits without wrapping and keeps the state at
    least 2^16. *)
Theorem C12_ans_state_never_overflows :
  forall S f st, 2 ^ 16 <= S < 2 ^ 32 -> 0 < f -> 0 <= st -> st + f <= 1024 ->
  let renorm := f * 2 ^ 22 <=? S in
  let T := if renorm then S / 2 ^ 16 else S in
  ans_put S f st = (T / f * 1024 + T mod f + st, if renorm then S mod 2 ^ 16 else 0, if renorm then 16 else 0)
  /\ 2 ^ 16 <= T / f * 1024 + T mod f + st < 2 ^ 32.
Proof. exact ans_put_nowrap. Qed.
Print Assumptions C12_ans_state_never_overflows.

Example C12_case : let l := map (fun i => ([1; 0; 1000; 23], nth (i mod 5) [2; 0; 3; 2; 2] 0)) (seq 0 100) in
  edecode (ask_syms (map fst l)) (encode_items (map (fun ts => ISym (fst ts) (snd ts)) l)) = Some (map snd l)
  /\ (length (encode_items (map (fun ts => ISym (fst ts) (snd ts)) l)) > 10)%nat.
Proof. split; [vm_compute; reflexivity|vm_compute; lia]. Qed.

(** C13.  Any interleaving and any adaptive decoder: [eaccept p l = Some (a, [])]
    says that [p], answered with the items of [l] one after the other, asks for
    exactly those kinds and parameters and returns [a]. *)
Theorem C13_interleaved_stream_round_trip :
  forall (A : Type) (p : eprog A) (l : list item) (a : A),
    items_ok l -> eaccept p l = Some (a, []) ->
    edecode p (encode_items l) = Some a.
Proof. exact @entropy_roundtrip. Qed.
Print Assumptions C13_interleaved_stream_round_trip.

(** The same through the byte serialisation. *)
Theorem C13_interleaved_stream_round_trip_bytes :
  forall (A : Type) (p : eprog A) (l : list item) (a : A),
    items_ok l -> eaccept p l = Some (a, []) ->
    bytes (words_to_bytes (encode_items l)) /\
    edecode p (bytes_to_words (words_to_bytes (encode_items l))) = Some a.
Proof.
  intros A p l a Hl Ha.
  destruct (words_bytes_roundtrip _ (encode_items_words l)) as (E1 & E2 & _).
  split; [exact E2|]. rewrite E1. apply entropy_roundtrip; assumption.
Qed.
Print Assumptions C13_interleaved_stream_round_trip_bytes.

(** An adaptive decoder: the number of raw bits and the next probability depend
    on decoded symbols. *)
Definition C13_dec : eprog (list Z) :=
  ESym [10; 1000; 14] (fun s =>
  EBits (Z.to_nat (3 + 5 * s)) (fun v =>
  EBit (v mod 256) (fun b =>
  ESym (if b then [512; 512] else [1024]) (fun t =>
  EBits 16 (fun w => ERet [s; v; b2z b; t; w]))))).
Example C13_case :
  let items := [ISym [10; 1000; 14] 2; IBits 13 5000; IBit 136 true; ISym [512; 512] 1; IBits 16 65535] in
  eaccept C13_dec items = Some ([2; 5000; 1; 1; 65535], []) /\ items_ok items /\
  edecode C13_dec (encode_items items) = Some [2; 5000; 1; 1; 65535].
Proof.
  cbv zeta. split; [vm_compute; reflexivity|]. split; [|vm_compute; reflexivity].
  repeat constructor; cbn; lia.
Qed.
