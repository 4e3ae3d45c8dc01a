(** Reader table and writer table built from the same DHT segment belong together. *)
From Verif Require Import Base JpegModel JBitModel JWriteProofs JReadProofs JHuffModel JHuffProofs.

(** Counts and values as ProcessDHT leaves them: the last symbol is the reserved 256. *)
Record huff_valid (counts values : list Z) : Prop := {
  hv_len : length counts = 17%nat;
  hv_nonneg : Forall (fun c => 0 <= c) counts;
  hv_n : (1 <= length (code_lens counts) <= 257)%nat;
  hv_vlen : length values = 257%nat;
  hv_kraft : kraft (code_lens counts) <= 65536;
  hv_range : Forall (fun v => 0 <= v < 256) (firstn (length (code_lens counts) - 1) values);
  hv_distinct : NoDup (firstn (length (code_lens counts) - 1) values);
  hv_last : nth (length (code_lens counts) - 1) values 0 = 256
}.

Definition lut_sane (lut : list (Z * Z)) : Prop :=
  length lut = lut_size /\ (snd (nth 0 lut lut_none) = 65535 -> lut = lut_init).

(** Every window decodes to a symbol; a proper symbol is the one whose code starts the window. *)
Definition slot_ok (lut : list (Z * Z)) (tab : codetab) : Prop :=
  lut_sane lut /\ forall w, 0 <= w < 65536 ->
    exists n v, lut_find lut w = JOk (n, v) /\ 0 <= n <= 16 /\ 0 <= v
      /\ (v < 256 -> 1 <= n /\ aget (fst tab) v = JOk n /\ aget (snd tab) v = JOk (w / 2 ^ (16 - n))).

Lemma slot_init tab : slot_ok lut_init tab.
Proof.
  split; [split; [apply repeat_length|reflexivity]|]. intros w Hw. exists 0, 65535. split; [|lia].
  unfold lut_find. assert (E : aget lut_init (w / 256) = JOk lut_none).
  { apply aget_Some. split; [apply Z.div_pos; lia|]. apply nth_error_repeat. unfold lut_size.
    assert (w / 256 < 256) by (apply Z.div_lt_upper_bound; lia). lia. }
  rewrite E. reflexivity.
Qed.

(** A window lies in the range of exactly one symbol. *)
Lemma find_kpos ls w : 0 <= w < kraft ls -> exists j, (j < length ls)%nat /\ kpos ls j <= w < kpos ls (S j).
Proof.
  revert w; induction ls as [|l r IH]; intros w H; [rewrite kraft_nil in H; lia|].
  rewrite kraft_cons in H. destruct (Z_lt_ge_dec w (wgt l)) as [Hl|Hl].
  - exists 0%nat. split; [cbn [length]; lia|]. unfold kpos. cbn [firstn]. rewrite kraft_cons, kraft_nil. lia.
  - destruct (IH (w - wgt l) ltac:(lia)) as [j [Hj Hw]]. exists (S j). split; [cbn [length]; lia|].
    unfold kpos in *. cbn [firstn]. rewrite !kraft_cons. cbn [firstn] in Hw. lia.
Qed.

Lemma build_codes_ok counts values slot last d k : huff_valid counts values -> length d = 256%nat -> length k = 256%nat ->
  exists d' k', build_codes (mkHC counts values slot last) (d, k) = JOk (d', k') /\ length d' = 256%nat /\ length k' = 256%nat
    /\ forall j, (j < length (code_lens counts) - 1)%nat ->
       aget d' (nth j values 0) = JOk (nth j (code_lens counts) 0)
       /\ exists c, aget k' (nth j values 0) = JOk c /\ 0 <= c /\ c * wgt (nth j (code_lens counts) 0) = kpos (code_lens counts) j.
Proof.
  intros [HL HN Hn HV HK HR HD HX] Ld Lk. unfold build_codes. cbn [hc_counts hc_values].
  pose proof (code_lens_range counts) as RG. pose proof (code_lens_ascending counts) as AS.
  set (ls := code_lens counts) in *.
  destruct (Z.ltb_spec 257 (Z.of_nat (length ls))); [lia|].
  destruct ls as [|l0 ls0] eqn:Els; [cbn [length] in Hn; lia|]. rewrite <- Els in *. clear Els l0 ls0.
  assert (RL : ls = removelast ls ++ [List.last ls 0]) by (apply app_removelast_last; intros E; rewrite E in Hn; cbn [length] in Hn; lia).
  set (sizes := removelast ls) in *. set (x := List.last ls 0) in *.
  assert (Lsz : length sizes = (length ls - 1)%nat) by (rewrite RL, app_length; cbn [length]; lia).
  assert (AS2 : ascending sizes).
  { rewrite RL in AS. clear - AS. induction sizes as [|a sz IH]; [exact I|]. cbn [app ascending] in *. destruct AS as [F A].
    apply Forall_app in F as [F _]. split; [exact F|]. apply IH, A. }
  assert (RG2 : Forall (fun l => 1 <= l <= 16) sizes) by (rewrite RL in RG; apply Forall_app in RG; apply RG).
  assert (RG3 : Forall (fun l => nth 0 sizes 0 <= l <= 16) sizes).
  { destruct sizes as [|a sz]; [constructor|]. cbn [nth]. cbn [ascending] in AS2. destruct AS2 as [F _]. inversion RG2; subst.
    constructor; [lia|]. eapply Forall_impl; [|apply (Forall_and F H3)]. cbv beta. intros; lia. }
  destruct (gen_codes_ok (length sizes + 17) sizes 0 (nth 0 sizes 0) AS2 RG3 ltac:(lia)) as [LG G].
  { destruct sizes as [|a sz]; [left; reflexivity|right]. cbn [nth]. apply Forall_inv in RG2. cbv beta in RG2. lia. }
  rewrite <- Lsz in *.
  destruct (put_codes_ok sizes (gen_codes (length sizes + 17) sizes 0 (nth 0 sizes 0)) values d k) as (d' & k' & E & L1 & L2 & G1 & _); auto; [lia|].
  exists d', k'. split; [exact E|]. split; [exact L1|]. split; [exact L2|].
  intros j Hj. destruct (G1 j Hj) as [A1 A2].
  assert (Nj : nth j ls 0 = nth j sizes 0) by (rewrite RL; apply app_nth1; exact Hj).
  assert (Kj : kpos ls j = kpos sizes j) by (rewrite RL; apply kpos_app; lia).
  rewrite Nj, Kj. split; [exact A1|]. eexists. split; [exact A2|]. destruct (G j Hj) as [G0 G2]. split; [exact G0|]. rewrite G2. lia.
Qed.

Theorem huff_pair counts values slot last lut0 d k : huff_valid counts values -> lut_sane lut0 -> length d = 256%nat -> length k = 256%nat ->
  exists lut d' k', build_lut counts values (prepare_lut (65536 - kraft (code_lens counts)) lut0) = JOk lut
    /\ build_codes (mkHC counts values slot last) (d, k) = JOk (d', k')
    /\ length d' = 256%nat /\ length k' = 256%nat /\ slot_ok lut (d', k')
    /\ forall j, (j < length (code_lens counts) - 1)%nat -> exists n c,
         aget d' (nth j values 0) = JOk n /\ aget k' (nth j values 0) = JOk c /\ 1 <= n <= 16 /\ 0 <= c < 2 ^ n
         /\ forall w, 0 <= w < 65536 -> w / 2 ^ (16 - n) = c -> lut_find lut w = JOk (n, nth j values 0).
Proof.
  intros HV [LS SN] Ld Lk. destruct (build_codes_ok counts values slot last d k HV Ld Lk) as (d' & k' & EC & L1 & L2 & CC).
  pose proof HV as [HL HN Hn HVl HK HR HD HX].
  pose proof (code_lens_range counts) as RG. set (ls := code_lens counts) in *.
  set (lut1 := prepare_lut (65536 - kraft ls) lut0).
  assert (P1 : length lut1 = lut_size).
  { unfold lut1, prepare_lut. destruct (_ && _); [apply repeat_length|exact LS]. }
  assert (P2 : kraft ls < 65536 -> lut1 = lut_init).
  { intros H. unfold lut1, prepare_lut. destruct (Z.ltb_spec 0 (65536 - kraft ls)); [|lia]. cbn [andb].
    destruct (Z.eqb_spec (snd (nth 0 lut0 lut_none)) 65535) as [E|N]; [cbn [negb]; apply SN, E|reflexivity]. }
  destruct (Nat.eq_dec (length ls) 1) as [E1|N1].
  - (* only the reserved symbol *)
    destruct (put_reps_ok 256 0 (0, nth 0 values 0) lut1) as (lut & EP & LP & G1 & G2); [lia|rewrite P1; unfold lut_size; lia|].
    exists lut, d', k'. split.
    { unfold build_lut. change (sumZ (0 :: skipn 1 counts)) with (0 + sumZ (skipn 1 counts)). rewrite total_lens by assumption.
      fold ls. rewrite E1. cbn [Z.of_nat Pos.of_succ_nat Z.add Z.eqb Pos.eqb].
      assert (EG : aget values 0 = JOk (nth 0 values 0)) by (apply aget_Some; split; [lia|]; apply nth_err_nth; lia).
      rewrite EG. cbn [jbind]. exact EP. }
    split; [exact EC|]. split; [exact L1|]. split; [exact L2|]. rewrite E1 in HX. cbn [Nat.sub] in HX. rewrite HX in G1.
    split; [|intros j Hj; lia].
    split; [split; [congruence|]|].
    + intros E. exfalso. assert (aget lut 0 = JOk (0, 256)) as G0 by (apply G1; lia).
      apply aget_Some in G0 as [_ G0]. apply nth_error_nth with (d := lut_none) in G0. change (Z.to_nat 0) with 0%nat in G0. rewrite G0 in E. cbn in E. lia.
    + intros w Hw. exists 0, 256. split; [|lia]. unfold lut_find. rewrite G1; [reflexivity|].
      split; [apply Z.div_pos; lia|apply Z.div_lt_upper_bound; lia].
  - assert (DH : dht_ok counts values lut1).
    { constructor; [exact HL|exact HN|fold ls; lia|fold ls; lia|exact HK|exact P1|exact P2]. }
    destruct (build_lut_ok counts values lut1 DH) as (lut & EB & LL & FD & FN & F0). fold ls in FD, FN.
    exists lut, d', k'. split; [exact EB|]. split; [exact EC|]. split; [exact L1|]. split; [exact L2|].
    (* geometry of one symbol *)
    assert (GEO : forall j c, (j < length ls)%nat -> c * wgt (nth j ls 0) = kpos ls j -> 1 <= nth j ls 0 <= 16
              /\ c < 2 ^ nth j ls 0 /\ forall w, kpos ls j <= w < kpos ls (S j) <-> w / 2 ^ (16 - nth j ls 0) = c).
    { intros j c Hj Hc. assert (Hl : 1 <= nth j ls 0 <= 16) by (rewrite Forall_forall in RG; apply RG, nth_In, Hj).
      split; [exact Hl|]. pose proof (wgt_pos (nth j ls 0) ltac:(lia)) as W. rewrite kpos_S by exact Hj.
      pose proof (kpos_le ls (S j) (length ls) ltac:(lia)) as KL. rewrite kpos_all, kpos_S in KL by exact Hj.
      split.
      - assert (E16 : 2 ^ nth j ls 0 * wgt (nth j ls 0) = 65536) by (unfold wgt; rewrite <- Z.pow_add_r by lia; replace (nth j ls 0 + (16 - nth j ls 0)) with 16 by lia; reflexivity).
        apply (Z.mul_lt_mono_pos_r (wgt (nth j ls 0))); lia.
      - intros w. fold (wgt (nth j ls 0)). rewrite <- Hc. split.
        + intros H. symmetry. apply (Z.div_unique w _ c (w - c * wgt (nth j ls 0))); [left|]; lia.
        + intros H. pose proof (Z.div_mod w (wgt (nth j ls 0)) ltac:(lia)). pose proof (Z.mod_pos_bound w (wgt (nth j ls 0)) ltac:(lia)). lia. }
    split; [split; [split; [exact LL|]|]|].
    + intros E. exfalso. apply (F0); [|exact E].
      assert (In (nth 0 values 0) (firstn (length ls - 1) values)) as IN.
      { rewrite <- (firstn_skipn (length ls - 1) values) at 1. rewrite app_nth1 by (rewrite firstn_length; lia). apply nth_In. rewrite firstn_length; lia. }
      rewrite Forall_forall in HR. specialize (HR _ IN). lia.
    + intros w Hw. destruct (Z_lt_ge_dec w (kraft ls)) as [Hk|Hk].
      * destruct (find_kpos ls w ltac:(lia)) as [j [Hj Hwj]]. exists (nth j ls 0), (nth j values 0).
        split; [apply FD; assumption|].
        assert (Hl : 1 <= nth j ls 0 <= 16) by (rewrite Forall_forall in RG; apply RG, nth_In, Hj).
        split; [lia|].
        destruct (Nat.eq_dec j (length ls - 1)) as [Ej|Nj].
        -- subst j. rewrite HX. lia.
        -- destruct (CC j ltac:(lia)) as [C1 (c & C2 & C3 & C4)].
           assert (In (nth j values 0) (firstn (length ls - 1) values)) as IN.
           { rewrite <- (firstn_skipn (length ls - 1) values) at 1. rewrite app_nth1 by (rewrite firstn_length; lia). apply nth_In. rewrite firstn_length; lia. }
           rewrite Forall_forall in HR. specialize (HR _ IN). split; [lia|]. intros _. split; [lia|]. cbn [fst snd]. split; [exact C1|].
           rewrite C2. f_equal. symmetry. apply (GEO j c Hj C4). exact Hwj.
      * destruct (FN w ltac:(lia)) as [n [Hn2 E]]. exists n, 65535. split; [exact E|]. lia.
    + intros j Hj. destruct (CC j Hj) as [C1 (c & C2 & C3 & C4)].
      destruct (GEO j c ltac:(lia) C4) as [Hl [Hc GG]]. exists (nth j ls 0), c. split; [exact C1|]. split; [exact C2|]. split; [exact Hl|]. split; [lia|].
      intros w Hw Ew. apply FD; [lia|]. apply GG. exact Ew.
Qed.

(** * Reading one symbol *)

Definition code_of (tab : codetab) (v : Z) : list bool :=
  match aget (fst tab) v, aget (snd tab) v with
  | JOk n, JOk c => mbits (Z.to_nat n) c
  | _, _ => []
  end.

Theorem read_symbol_slot data p0 U s lut tab : bytes data -> bri data p0 U s -> slot_ok lut tab ->
  exists v s', read_symbol data lut s = JOk (v, s') /\ 0 <= v
    /\ (exists c, bri data p0 (U ++ c) s')
    /\ (v < 256 -> bri data p0 (U ++ code_of tab v) s' /\ exists n c, aget (fst tab) v = JOk n /\ aget (snd tab) v = JOk c
          /\ 1 <= n <= 16 /\ 0 <= c < 2 ^ n).
Proof.
  intros Y I [[LL _] SO]. destruct (read_symbol_ok data p0 U s lut Y I LL) as (L & E & V & _ & _ & LV & RW & RS).
  set (w := mval (firstn 16 V)) in *. destruct (SO w RW) as (n & v & FD & Hn & Hv & K).
  destruct (RS n v FD Hn) as [s' [R I']]. exists v, s'. split; [exact R|]. split; [exact Hv|]. split; [eauto|].
  intros Hlt. destruct (K Hlt) as [N1 [A1 A2]].
  assert (EQ : firstn (Z.to_nat n) V = mbits (Z.to_nat n) (w / 2 ^ (16 - n))).
  { assert (EF : firstn (Z.to_nat n) V = firstn (Z.to_nat n) (firstn 16 V)) by (rewrite firstn_firstn; f_equal; lia).
    assert (L16 : length (firstn 16 V) = 16%nat) by (rewrite firstn_length; lia).
    assert (EM : w / 2 ^ (16 - n) = mval (firstn (Z.to_nat n) V)).
    { rewrite EF, mval_firstn_div by lia. rewrite L16. fold w. do 2 f_equal. lia. }
    rewrite EM. assert (LN : length (firstn (Z.to_nat n) V) = Z.to_nat n) by (rewrite firstn_length; lia).
    rewrite <- LN at 2. rewrite mbits_mval. reflexivity. }
  split.
  - unfold code_of. rewrite A1, A2. rewrite <- EQ. exact I'.
  - exists n, (w / 2 ^ (16 - n)). split; [exact A1|]. split; [exact A2|]. split; [lia|].
    split; [apply Z.div_pos; [lia|apply pow2_pos; lia]|]. apply Z.div_lt_upper_bound; [apply pow2_pos; lia|].
    rewrite <- Z.pow_add_r by lia. replace (16 - n + n) with 16 by lia. change (2 ^ 16) with 65536. lia.
Qed.
