(** The BitWriter emits the stuffed bytes of the bits it was given. *)
From Verif Require Import Base JBitModel.

(** * Most-significant-first bit strings *)

Lemma mbits_length n v : length (mbits n v) = n.
Proof. unfold mbits. rewrite rev_length. apply bits_of_length. Qed.

Lemma mval_app l1 l2 : mval (l1 ++ l2) = mval l1 * 2 ^ Z.of_nat (length l2) + mval l2.
Proof. unfold mval. rewrite rev_app_distr, val_of_app, rev_length. lia. Qed.

Lemma mval_range l : 0 <= mval l < 2 ^ Z.of_nat (length l).
Proof. unfold mval. rewrite <- (rev_length l). apply val_of_range. Qed.

Lemma mval_mbits n v : mval (mbits n v) = v mod 2 ^ Z.of_nat n.
Proof. unfold mval, mbits. rewrite rev_involutive. apply val_of_bits_of. Qed.

Lemma mval_mbits_small n v : 0 <= v < 2 ^ Z.of_nat n -> mval (mbits n v) = v.
Proof. intros H. rewrite mval_mbits. apply Z.mod_small, H. Qed.

Lemma mbits_mval l : mbits (length l) (mval l) = l.
Proof. unfold mval, mbits. rewrite <- (rev_length l), bits_of_val_of. apply rev_involutive. Qed.

Lemma mbits_app n m v : mbits (n + m) v = mbits n (v / 2 ^ Z.of_nat m) ++ mbits m v.
Proof. unfold mbits. rewrite Nat.add_comm, bits_of_app, rev_app_distr. reflexivity. Qed.

Lemma mbits_mod n v : mbits n (v mod 2 ^ Z.of_nat n) = mbits n v.
Proof. unfold mbits. rewrite bits_of_mod. reflexivity. Qed.

Lemma mval_inj l1 l2 : length l1 = length l2 -> mval l1 = mval l2 -> l1 = l2.
Proof. intros L E. rewrite <- (mbits_mval l1), <- (mbits_mval l2), L, E. reflexivity. Qed.

Lemma mval_one b : mval [b] = b2z b.
Proof. destruct b; reflexivity. Qed.

Lemma byte_bits_app l1 l2 : byte_bits (l1 ++ l2) = byte_bits l1 ++ byte_bits l2.
Proof. unfold byte_bits. apply flat_map_app. Qed.

Lemma byte_bits_length l : length (byte_bits l) = (8 * length l)%nat.
Proof. induction l as [|b l IH]; [reflexivity|]. unfold byte_bits in *. cbn [flat_map]. rewrite app_length, mbits_length, IH. cbn [length]; lia. Qed.

Lemma byte_bits_nil l : byte_bits l = [] -> l = [].
Proof. destruct l as [|b l]; [reflexivity|]. intros E. apply (f_equal (@length bool)) in E. rewrite byte_bits_length in E. cbn [length] in E. lia. Qed.

Lemma byte_bits_one v : byte_bits [v] = mbits 8 v.
Proof. unfold byte_bits. cbn [flat_map]. apply app_nil_r. Qed.

Lemma byte_bits_mval l : length l = 8%nat -> byte_bits [mval l] = l.
Proof. intros L. rewrite byte_bits_one. rewrite <- L. apply mbits_mval. Qed.

Lemma app_len_inj {A} (a b c d : list A) : length a = length c -> a ++ b = c ++ d -> a = c /\ b = d.
Proof.
  revert c; induction a as [|x a IH]; intros [|y c] L E; cbn [length app] in *; try lia; [auto|].
  injection E as -> E. destruct (IH c ltac:(lia) E) as [-> ->]. auto.
Qed.

Lemma byte_bits_inj l1 l2 : bytes l1 -> bytes l2 -> byte_bits l1 = byte_bits l2 -> l1 = l2.
Proof.
  revert l2; induction l1 as [|a l1 IH]; intros [|b l2] B1 B2 E.
  - reflexivity.
  - symmetry in E. apply byte_bits_nil in E. discriminate.
  - apply byte_bits_nil in E. discriminate.
  - apply bytes_cons in B1 as [Ha B1]. apply bytes_cons in B2 as [Hb B2].
    change (a :: l1) with ([a] ++ l1) in E. change (b :: l2) with ([b] ++ l2) in E.
    rewrite !byte_bits_app, !byte_bits_one in E.
    apply app_len_inj in E as [E1 E]; [|rewrite !mbits_length; reflexivity].
    f_equal; [|apply IH; assumption].
    unfold is_byte in *. rewrite <- (mval_mbits_small 8 a), <- (mval_mbits_small 8 b) by (change (2 ^ Z.of_nat 8) with 256; lia).
    rewrite E1. reflexivity.
Qed.

Lemma stuff_app l1 l2 : stuff (l1 ++ l2) = stuff l1 ++ stuff l2.
Proof. unfold stuff. apply flat_map_app. Qed.

Lemma stuff_small b : b <> 255 -> stuff [b] = [b].
Proof. intros H. unfold stuff. cbn [flat_map app]. destruct (Z.eqb_spec b 255); [contradiction|reflexivity]. Qed.

(** Cut a bit string of a whole number of bytes. *)
Fixpoint packm (n : nat) (l : list bool) : list Z :=
  match n with
  | O => []
  | S n' => mval (firstn 8 l) :: packm n' (skipn 8 l)
  end.

Lemma packm_bits n l : length l = (8 * n)%nat -> byte_bits (packm n l) = l.
Proof.
  revert l; induction n as [|n IH]; intros l L.
  - destruct l; [reflexivity|cbn [length] in L; lia].
  - cbn [packm]. change (?a :: ?b) with ([a] ++ b). rewrite byte_bits_app, byte_bits_mval, IH.
    + apply firstn_skipn.
    + rewrite skipn_length. lia.
    + rewrite firstn_length. lia.
Qed.

Lemma packm_bytes n l : (8 * n <= length l)%nat -> bytes (packm n l).
Proof.
  revert l; induction n as [|n IH]; intros l L; [constructor|].
  cbn [packm]. apply bytes_cons; split.
  - unfold is_byte. pose proof (mval_range (firstn 8 l)) as R. rewrite firstn_length in R.
    replace (Nat.min 8 (length l)) with 8%nat in R by lia. exact R.
  - apply IH. rewrite skipn_length. lia.
Qed.

(** * The 64-bit buffer *)

Definition bufof (P : list bool) : Z := mval P * 2 ^ (64 - Z.of_nat (length P)).

Lemma bufof_range P : (length P <= 64)%nat -> 0 <= bufof P < 2 ^ 64.
Proof.
  intros L. unfold bufof. pose proof (mval_range P) as R.
  replace (2 ^ 64) with (2 ^ Z.of_nat (length P) * 2 ^ (64 - Z.of_nat (length P))) by (rewrite <- Z.pow_add_r by lia; f_equal; lia).
  pose proof (pow2_pos (64 - Z.of_nat (length P)) ltac:(lia)). nia.
Qed.

Lemma buf_byte_spec x sh : 0 <= sh -> buf_byte x sh = (x / 2 ^ sh) mod 256.
Proof. intros H. unfold buf_byte. rewrite Z.shiftr_div_pow2 by exact H. change 255 with (2 ^ 8 - 1). apply land_ones_mod; lia. Qed.

Lemma buf_top P : (8 <= length P <= 64)%nat -> buf_byte (bufof P) 56 = mval (firstn 8 P).
Proof.
  intros L. rewrite buf_byte_spec by lia. unfold bufof.
  rewrite <- (firstn_skipn 8 P) at 1. rewrite mval_app.
  assert (L8 : length (firstn 8 P) = 8%nat) by (rewrite firstn_length; lia).
  assert (Ls : length (skipn 8 P) = (length P - 8)%nat) by apply skipn_length.
  pose proof (mval_range (firstn 8 P)) as R1. rewrite L8 in R1. change (2 ^ Z.of_nat 8) with 256 in R1.
  pose proof (mval_range (skipn 8 P)) as R2. rewrite Ls in *.
  set (a := mval (firstn 8 P)) in *. set (b := mval (skipn 8 P)) in *.
  set (k := 64 - Z.of_nat (length P)) in *.
  assert (E : 2 ^ 56 = 2 ^ Z.of_nat (length P - 8) * 2 ^ k).
  { unfold k. rewrite <- Z.pow_add_r by lia. f_equal; lia. }
  rewrite E. pose proof (pow2_pos k ltac:(unfold k; lia)). pose proof (pow2_pos_nat (length P - 8)).
  rewrite Z.div_mul_cancel_r by lia. rewrite Z.div_add_l by lia.
  rewrite (Z.div_small b) by lia. rewrite Z.add_0_r. apply Z.mod_small; lia.
Qed.

Lemma buf_shift P n : (n <= length P <= 64)%nat ->
  Z.shiftl (bufof P) (Z.of_nat n) mod 2 ^ 64 = bufof (skipn n P).
Proof.
  intros L. rewrite Z.shiftl_mul_pow2 by lia. unfold bufof.
  rewrite <- (firstn_skipn n P) at 1. rewrite mval_app.
  assert (Ls : length (skipn n P) = (length P - n)%nat) by apply skipn_length.
  rewrite Ls.
  set (a := mval (firstn n P)). set (b := mval (skipn n P)).
  replace ((a * 2 ^ Z.of_nat (length P - n) + b) * 2 ^ (64 - Z.of_nat (length P)) * 2 ^ Z.of_nat n)
    with (b * 2 ^ (64 - Z.of_nat (length P - n)) + a * 2 ^ 64).
  - rewrite Z.mod_add by (apply Z.pow_nonzero; lia). apply Z.mod_small.
    pose proof (bufof_range (skipn n P) ltac:(lia)) as R. unfold bufof in R. rewrite Ls in R. exact R.
  - rewrite Z.mul_add_distr_r, Z.mul_add_distr_r.
    replace (2 ^ 64) with (2 ^ Z.of_nat (length P - n) * 2 ^ (64 - Z.of_nat (length P)) * 2 ^ Z.of_nat n)
      by (rewrite <- !Z.pow_add_r by lia; f_equal; lia).
    replace (2 ^ (64 - Z.of_nat (length P - n))) with (2 ^ (64 - Z.of_nat (length P)) * 2 ^ Z.of_nat n)
      by (rewrite <- Z.pow_add_r by lia; f_equal; lia). ring.
Qed.

Lemma buf_byte_shift x j : 0 <= x < 2 ^ 64 -> (j <= 7)%nat ->
  buf_byte x (56 - 8 * Z.of_nat j) = buf_byte (Z.shiftl x (8 * Z.of_nat j) mod 2 ^ 64) 56.
Proof.
  intros Hx Hj. rewrite !buf_byte_spec by lia. rewrite Z.shiftl_mul_pow2 by lia.
  set (d := 8 * Z.of_nat j). replace (2 ^ 64) with (2 ^ (64 - d) * 2 ^ d) by (rewrite <- Z.pow_add_r by lia; f_equal; lia).
  pose proof (pow2_pos d ltac:(lia)). pose proof (pow2_pos (64 - d) ltac:(lia)). pose proof (pow2_pos (56 - d) ltac:(lia)).
  rewrite Z.mul_mod_distr_r by lia.
  replace (2 ^ 56) with (2 ^ (56 - d) * 2 ^ d) by (rewrite <- Z.pow_add_r by lia; f_equal; lia).
  rewrite Z.div_mul_cancel_r by lia.
  replace (2 ^ (64 - d)) with (2 ^ (56 - d) * 256) by (change 256 with (2 ^ 8); rewrite <- Z.pow_add_r by lia; f_equal; lia).
  rewrite Z.rem_mul_r by lia.
  replace (x mod 2 ^ (56 - d) + 2 ^ (56 - d) * ((x / 2 ^ (56 - d)) mod 256)) with
    ((x / 2 ^ (56 - d)) mod 256 * 2 ^ (56 - d) + x mod 2 ^ (56 - d)) by ring.
  rewrite Z.div_add_l by lia. rewrite (Z.div_small (x mod _)) by (apply Z.mod_pos_bound; lia).
  rewrite Z.add_0_r, Z.mod_mod by lia. reflexivity.
Qed.

Lemma skipn_plus {A} m n (l : list A) : skipn n (skipn m l) = skipn (m + n) l.
Proof. revert l; induction m as [|m IH]; intros l; [reflexivity|]. destruct l as [|a l]; cbn [skipn Nat.add]; [apply skipn_nil|apply IH]. Qed.

Lemma buf_nth_byte P j : (j <= 7)%nat -> (8 * j + 8 <= length P <= 64)%nat ->
  buf_byte (bufof P) (56 - 8 * Z.of_nat j) = mval (firstn 8 (skipn (8 * j) P)).
Proof.
  intros J L. rewrite buf_byte_shift by (try apply bufof_range; lia).
  replace (8 * Z.of_nat j) with (Z.of_nat (8 * j)) by lia.
  rewrite buf_shift by lia. apply buf_top. rewrite skipn_length. lia.
Qed.

(** * HasZeroByte *)

(** A 64-bit number with a zero byte is recognised. *)
Lemma zero_byte_seen x : forall i : nat, (i < 8)%nat -> 0 <= x < 2 ^ 64 ->
  (x / 2 ^ (8 * Z.of_nat i)) mod 256 = 0 ->
  (forall j : nat, (j < i)%nat -> (x / 2 ^ (8 * Z.of_nat j)) mod 256 <> 0) ->
  has_zero_byte x = true.
Proof.
  intros i Hi Hx Z0 Lo.
  unfold has_zero_byte. apply negb_true_iff, Z.eqb_neq. intros E0.
  assert (T : Z.testbit (Z.land (Z.land ((x - 72340172838076673) mod 2 ^ 64) (2 ^ 64 - 1 - x)) 9259542123273814144)
                (8 * Z.of_nat i + 7) = true).
  2:{ rewrite E0, Z.bits_0 in T. discriminate. }
  rewrite !Z.land_spec, !andb_true_iff.
  split; [split|].
  - rewrite Z.mod_pow2_bits_low by lia.
    (* no borrow reaches byte i *)
    assert (D : x = x / 2 ^ (8 * Z.of_nat i + 8) * 2 ^ (8 * Z.of_nat i + 8) + x mod 2 ^ (8 * Z.of_nat i)).
    { pose proof (pow2_pos (8 * Z.of_nat i) ltac:(lia)).
      pose proof (Z.div_mod x (2 ^ (8 * Z.of_nat i)) ltac:(lia)) as D1.
      pose proof (Z.div_mod (x / 2 ^ (8 * Z.of_nat i)) 256 ltac:(lia)) as D2.
      rewrite Z0, Z.div_div in D2 by lia.
      assert (E8 : 2 ^ (8 * Z.of_nat i + 8) = 2 ^ (8 * Z.of_nat i) * 256) by (rewrite Z.pow_add_r by lia; reflexivity).
      rewrite E8. rewrite D2 in D1. lia. }
    assert (G : exists q r, x - 72340172838076673 = q * 2 ^ (8 * Z.of_nat i + 8) + 255 * 2 ^ (8 * Z.of_nat i) + r
                          /\ 0 <= r < 2 ^ (8 * Z.of_nat i)).
    { set (lo := x mod 2 ^ (8 * Z.of_nat i)) in *.
      assert (LB : forall m, (m <= i)%nat -> Z.of_nat (256 ^ m) <= 255 * (x mod 2 ^ (8 * Z.of_nat m)) + 1).
      { induction m as [|m IHm]; intros Hm.
        - change (8 * Z.of_nat 0) with 0. change (2 ^ 0) with 1. rewrite Z.mod_1_r. reflexivity.
        - specialize (IHm ltac:(lia)). specialize (Lo m ltac:(lia)).
          replace (8 * Z.of_nat (S m)) with (8 * Z.of_nat m + 8) by lia.
          rewrite Z.pow_add_r by lia. pose proof (pow2_pos (8 * Z.of_nat m) ltac:(lia)).
          rewrite Z.rem_mul_r by lia. change (2 ^ 8) with 256.
          pose proof (Z.mod_pos_bound (x / 2 ^ (8 * Z.of_nat m)) 256 ltac:(lia)).
          cbn [Nat.pow]. rewrite Nat2Z.inj_mul.
          assert (E2 : Z.of_nat (256 ^ m) = 2 ^ (8 * Z.of_nat m)).
          { rewrite Nat2Z.inj_pow. change (Z.of_nat 256) with (2 ^ 8). rewrite <- Z.pow_mul_r by lia. reflexivity. }
          rewrite E2 in *. change (Z.of_nat 256) with 256. nia. }
      specialize (LB i ltac:(lia)).
      assert (E2 : Z.of_nat (256 ^ i) = 2 ^ (8 * Z.of_nat i)).
      { rewrite Nat2Z.inj_pow. change (Z.of_nat 256) with (2 ^ 8). rewrite <- Z.pow_mul_r by lia. reflexivity. }
      rewrite E2 in LB. fold lo in LB.
      assert (Hlo : 0 <= lo < 2 ^ (8 * Z.of_nat i)) by (apply Z.mod_pos_bound, pow2_pos; lia).
      set (hi := x / 2 ^ (8 * Z.of_nat i + 8)) in *.
      assert (C : (i = 0 \/ i = 1 \/ i = 2 \/ i = 3 \/ i = 4 \/ i = 5 \/ i = 6 \/ i = 7)%nat) by lia.
      clear Z0 Lo E2 E0.
      destruct C as [->|[->|[->|[->|[->|[->|[->| ->]]]]]]].
      - exists (hi - 282578800148737 - 1), (lo - 0). change (8 * Z.of_nat 0) with 0 in *.
        change (2 ^ (0 + 8)) with 256 in *. change (2 ^ 0) with 1 in *. lia.
      - exists (hi - 1103823438081 - 1), (lo - 1). change (8 * Z.of_nat 1) with 8 in *.
        change (2 ^ (8 + 8)) with 65536 in *. change (2 ^ 8) with 256 in *. lia.
      - exists (hi - 4311810305 - 1), (lo - 257). change (8 * Z.of_nat 2) with 16 in *.
        change (2 ^ (16 + 8)) with 16777216 in *. change (2 ^ 16) with 65536 in *. lia.
      - exists (hi - 16843009 - 1), (lo - 65793). change (8 * Z.of_nat 3) with 24 in *.
        change (2 ^ (24 + 8)) with 4294967296 in *. change (2 ^ 24) with 16777216 in *. lia.
      - exists (hi - 65793 - 1), (lo - 16843009). change (8 * Z.of_nat 4) with 32 in *.
        change (2 ^ (32 + 8)) with 1099511627776 in *. change (2 ^ 32) with 4294967296 in *. lia.
      - exists (hi - 257 - 1), (lo - 4311810305). change (8 * Z.of_nat 5) with 40 in *.
        change (2 ^ (40 + 8)) with 281474976710656 in *. change (2 ^ 40) with 1099511627776 in *. lia.
      - exists (hi - 1 - 1), (lo - 1103823438081). change (8 * Z.of_nat 6) with 48 in *.
        change (2 ^ (48 + 8)) with 72057594037927936 in *. change (2 ^ 48) with 281474976710656 in *. lia.
      - exists (hi - 1), (lo - 282578800148737). change (8 * Z.of_nat 7) with 56 in *.
        change (2 ^ (56 + 8)) with 18446744073709551616 in *. change (2 ^ 56) with 72057594037927936 in *. lia. }
    destruct G as [q [r [E Hr]]]. rewrite E. clear E D.
    rewrite Z.testbit_true by lia.
    replace (q * 2 ^ (8 * Z.of_nat i + 8) + 255 * 2 ^ (8 * Z.of_nat i) + r)
      with ((2 * q + 1) * 2 ^ (8 * Z.of_nat i + 7) + (127 * 2 ^ (8 * Z.of_nat i) + r)).
    + pose proof (pow2_pos (8 * Z.of_nat i + 7) ltac:(lia)).
      assert (E7 : 2 ^ (8 * Z.of_nat i + 7) = 128 * 2 ^ (8 * Z.of_nat i)) by (rewrite Z.pow_add_r by lia; change (2 ^ 7) with 128; ring).
      rewrite Z.div_add_l by lia. rewrite (Z.div_small (127 * _ + r)) by lia.
      rewrite Z.add_0_r. rewrite Z.add_comm, Z.mul_comm, Z.mod_add by lia. reflexivity.
    + replace (2 ^ (8 * Z.of_nat i + 8)) with (256 * 2 ^ (8 * Z.of_nat i)) by (rewrite Z.pow_add_r by lia; change (2 ^ 8) with 256; ring).
      replace (2 ^ (8 * Z.of_nat i + 7)) with (128 * 2 ^ (8 * Z.of_nat i)) by (rewrite Z.pow_add_r by lia; change (2 ^ 7) with 128; ring).
      ring.
  - (* bit 7 of byte i of the complement *)
    rewrite Z.testbit_true by lia.
    pose proof (pow2_pos (8 * Z.of_nat i) ltac:(lia)) as Pp.
    assert (E8 : 2 ^ (8 * Z.of_nat i + 7) = 2 ^ (8 * Z.of_nat i) * 128) by (rewrite Z.pow_add_r by lia; reflexivity).
    rewrite E8. rewrite <- Z.div_div by lia.
    assert (E9 : 2 ^ 64 = 2 ^ (64 - 8 * Z.of_nat i - 8) * (2 ^ (8 * Z.of_nat i) * 256)).
    { replace (2 ^ (8 * Z.of_nat i) * 256) with (2 ^ (8 * Z.of_nat i + 8)) by (rewrite Z.pow_add_r by lia; reflexivity).
      rewrite <- Z.pow_add_r by lia. f_equal; lia. }
    set (u := 2 ^ (8 * Z.of_nat i)) in *. set (w := 2 ^ (64 - 8 * Z.of_nat i - 8)) in *.
    pose proof (Z.div_mod x u ltac:(lia)) as D1. pose proof (Z.mod_pos_bound x u ltac:(lia)) as B1.
    pose proof (Z.div_mod (x / u) 256 ltac:(lia)) as D2. rewrite Z0 in D2.
    set (q := x / u) in *. set (h := q / 256) in *.
    replace (2 ^ 64 - 1 - x) with ((w * 256 - 1 - q) * u + (u - 1 - x mod u)) by (rewrite E9; lia).
    rewrite Z.div_add_l by lia. rewrite (Z.div_small (u - 1 - _)) by lia.
    replace (w * 256 - 1 - q + 0) with (((w - 1 - h) * 2 + 1) * 128 + 127) by lia.
    rewrite Z.div_add_l by lia. change (127 / 128) with 0.
    rewrite Z.add_0_r, Z.add_comm, Z.mod_add by lia. reflexivity.
  - assert (C : (i = 0 \/ i = 1 \/ i = 2 \/ i = 3 \/ i = 4 \/ i = 5 \/ i = 6 \/ i = 7)%nat) by lia.
    destruct C as [->|[->|[->|[->|[->|[->|[->| ->]]]]]]]; reflexivity.
Qed.

Lemma lowest {P : nat -> Prop} (dec : forall i, {P i} + {~ P i}) n : P n ->
  exists i, (i <= n)%nat /\ P i /\ forall j, (j < i)%nat -> ~ P j.
Proof.
  intros Pn. induction n as [n IH] using lt_wf_ind.
  destruct (List.Exists_dec P (seq 0 n) dec) as [E|N].
  - apply Exists_exists in E as [m [I Pm]]. apply in_seq in I.
    destruct (IH m ltac:(lia) Pm) as [i [L [Pi Lo]]]. exists i. repeat split; auto. lia.
  - exists n. split; [lia|]. split; [exact Pn|]. intros j Hj Pj. apply N. apply Exists_exists. exists j. split; [apply in_seq; lia|exact Pj].
Qed.

Lemma zero_byte_seen' x (i : nat) : (i < 8)%nat -> 0 <= x < 2 ^ 64 ->
  (x / 2 ^ (8 * Z.of_nat i)) mod 256 = 0 -> has_zero_byte x = true.
Proof.
  intros Hi Hx Z0.
  destruct (lowest (P := fun i => (x / 2 ^ (8 * Z.of_nat i)) mod 256 = 0) (fun i => Z.eq_dec _ _) i Z0) as [k [Lk [Zk Lo]]].
  apply (zero_byte_seen x k); auto. lia.
Qed.

(** The test guarding the fast path. *)
Lemma fast_path_safe buf (j : nat) : 0 <= buf < 2 ^ 64 -> (2 <= j < 8)%nat ->
  has_zero_byte (Z.lor (2 ^ 64 - 1 - buf) 65535) = false -> buf_byte buf (8 * Z.of_nat j) <> 255.
Proof.
  intros Hb Hj F E. rewrite buf_byte_spec in E by lia.
  set (x := Z.lor (2 ^ 64 - 1 - buf) 65535) in *.
  assert (Ex : x / 2 ^ 16 = (2 ^ 64 - 1 - buf) / 2 ^ 16).
  { unfold x. rewrite <- !Z.shiftr_div_pow2 by lia. rewrite Z.shiftr_lor.
    change (Z.shiftr 65535 16) with 0. apply Z.lor_0_r. }
  assert (Hx : 0 <= x < 2 ^ 64).
  { split; [unfold x; apply Z.lor_nonneg; lia|].
    assert (D : x / 2 ^ 16 < 2 ^ 48).
    { rewrite Ex. apply Z.div_lt_upper_bound; [lia|]. change (2 ^ 16 * 2 ^ 48) with (2 ^ 64). lia. }
    pose proof (Z.div_mod x (2 ^ 16) ltac:(lia)). pose proof (Z.mod_pos_bound x (2 ^ 16) ltac:(lia)).
    change (2 ^ 64) with (2 ^ 16 * 2 ^ 48). change (2 ^ 16) with 65536 in *. change (2 ^ 48) with 281474976710656 in *. lia. }
  rewrite (zero_byte_seen' x j) in F; [discriminate|lia|exact Hx|].
  replace (2 ^ (8 * Z.of_nat j)) with (2 ^ 16 * 2 ^ (8 * Z.of_nat j - 16)) by (rewrite <- Z.pow_add_r by lia; f_equal; lia).
  pose proof (pow2_pos (8 * Z.of_nat j - 16) ltac:(lia)).
  rewrite <- Z.div_div by lia. rewrite Ex. rewrite Z.div_div by lia.
  replace (2 ^ 16 * 2 ^ (8 * Z.of_nat j - 16)) with (2 ^ (8 * Z.of_nat j)) by (rewrite <- Z.pow_add_r by lia; f_equal; lia).
  set (u := 2 ^ (8 * Z.of_nat j)) in *. pose proof (pow2_pos (8 * Z.of_nat j) ltac:(lia)) as Pu. fold u in Pu.
  assert (E9 : 2 ^ 64 = 2 ^ (56 - 8 * Z.of_nat j) * (u * 256)).
  { unfold u. change 256 with (2 ^ 8). rewrite <- !Z.pow_add_r by lia. f_equal; lia. }
  pose proof (Z.div_mod buf u ltac:(lia)) as D1. pose proof (Z.mod_pos_bound buf u ltac:(lia)) as B1.
  pose proof (Z.div_mod (buf / u) 256 ltac:(lia)) as D2. rewrite E in D2.
  set (q := buf / u) in *. set (h := q / 256) in *. set (w := 2 ^ (56 - 8 * Z.of_nat j)) in *.
  replace (2 ^ 64 - 1 - buf) with ((w * 256 - 1 - q) * u + (u - 1 - buf mod u)) by (rewrite E9; lia).
  rewrite Z.div_add_l by lia. rewrite (Z.div_small (u - 1 - _)) by lia.
  replace (w * 256 - 1 - q + 0) with ((w - 1 - h) * 256) by lia. apply Z.mod_mul; lia.
Qed.

(** * Stores *)

(** Everything the writer has produced so far. *)
Definition bout (s : bitw) : list Z := concat (bw_chunks s) ++ bw_cur s.

Definition app_cur (s : bitw) (l : list Z) : bitw :=
  mkBW (bw_chunks s) (bw_cur s ++ l) (bw_buf s) (bw_free s) (bw_ok s).

Definition room (n : Z) (s : bitw) : Prop := Z.of_nat (length (bw_cur s)) + n <= chunk_size.

Lemma app_cur_app s l1 l2 : app_cur (app_cur s l1) l2 = app_cur s (l1 ++ l2).
Proof. unfold app_cur. cbn [bw_chunks bw_cur bw_buf bw_free bw_ok]. rewrite app_assoc. reflexivity. Qed.

Lemma app_cur_out s l : bout (app_cur s l) = bout s ++ l.
Proof. unfold bout, app_cur. cbn [bw_chunks bw_cur]. apply app_assoc. Qed.

Lemma app_cur_room s l n m : room n s -> Z.of_nat (length l) + m <= n -> room m (app_cur s l).
Proof. unfold room, app_cur. cbn [bw_cur]. rewrite app_length. lia. Qed.

Lemma reserve_out n s : bout (bw_reserve n s) = bout s.
Proof.
  unfold bw_reserve, bout. destruct (_ <? _); [|reflexivity]. cbn [bw_chunks bw_cur].
  rewrite concat_app. cbn [concat]. rewrite !app_nil_r. reflexivity.
Qed.

Lemma reserve_room n s : n <= chunk_size -> room n (bw_reserve n s).
Proof.
  intros H. unfold bw_reserve, room. destruct (Z.ltb_spec chunk_size (Z.of_nat (length (bw_cur s)) + n)); [|lia].
  cbn [bw_cur length]. lia.
Qed.

Lemma reserve_fields n s : bw_buf (bw_reserve n s) = bw_buf s /\ bw_free (bw_reserve n s) = bw_free s /\ bw_ok (bw_reserve n s) = bw_ok s.
Proof. unfold bw_reserve. destruct (_ <? _); auto. Qed.

Lemma put_ok b s : room 1 s -> bw_put b s = Some (app_cur s [b]).
Proof. unfold room, bw_put, app_cur. intros H. destruct (Z.ltb_spec (Z.of_nat (length (bw_cur s))) chunk_size); [reflexivity|lia]. Qed.

Lemma emit_ok b s : room 2 s -> bw_emit b s = Some (app_cur s (stuff [b])).
Proof.
  intros R. unfold bw_emit. rewrite put_ok by (unfold room in *; lia). cbn [obind].
  unfold stuff. cbn [flat_map]. rewrite app_nil_r.
  destruct (Z.eqb_spec b 255) as [->|N]; [|reflexivity].
  rewrite put_ok; [|apply (app_cur_room _ _ 2); [exact R|cbn [length]; lia]].
  rewrite app_cur_app. reflexivity.
Qed.

Definition six (buf : Z) : list Z :=
  [buf_byte buf 56; buf_byte buf 48; buf_byte buf 40; buf_byte buf 32; buf_byte buf 24; buf_byte buf 16].

Lemma stuff_len1 b : (length (stuff [b]) <= 2)%nat.
Proof. unfold stuff. cbn [flat_map]. destruct (b =? 255); cbn [length app]; lia. Qed.

Lemma bytes_emit buf s : room 12 s -> bw_bytes bw_emit buf s = Some (app_cur s (stuff (six buf))).
Proof.
  intros R. unfold bw_bytes, six.
  assert (Step : forall b l, (length l <= 10)%nat -> bw_emit b (app_cur s l) = Some (app_cur s (l ++ stuff [b]))).
  { intros b l L. rewrite emit_ok; [rewrite app_cur_app; reflexivity|]. eapply app_cur_room; [exact R|lia]. }
  rewrite emit_ok by (unfold room in *; lia). cbn [obind].
  change (?a :: ?b :: ?c :: ?d :: ?e :: [?f]) with ([a] ++ [b] ++ [c] ++ [d] ++ [e] ++ [f]).
  rewrite !stuff_app.
  pose proof (stuff_len1 (buf_byte buf 56)). pose proof (stuff_len1 (buf_byte buf 48)).
  pose proof (stuff_len1 (buf_byte buf 40)). pose proof (stuff_len1 (buf_byte buf 32)).
  pose proof (stuff_len1 (buf_byte buf 24)).
  do 5 (rewrite Step by (rewrite ?app_length; lia); cbn [obind]).
  rewrite !app_assoc. reflexivity.
Qed.

Lemma bytes_put buf s : room 12 s -> bw_bytes bw_put buf s = Some (app_cur s (six buf)).
Proof.
  intros R. unfold bw_bytes, six.
  assert (Step : forall b l, (length l <= 10)%nat -> bw_put b (app_cur s l) = Some (app_cur s (l ++ [b]))).
  { intros b l L. rewrite put_ok; [rewrite app_cur_app; reflexivity|]. eapply app_cur_room; [exact R|lia]. }
  rewrite put_ok by (unfold room in *; lia). cbn [obind].
  do 5 (rewrite Step by (cbn [length app]; lia); cbn [obind]). reflexivity.
Qed.

Lemma stuff_none l : Forall (fun b => b <> 255) l -> stuff l = l.
Proof.
  induction 1 as [|b l Hb _ IH]; [reflexivity|]. change (b :: l) with ([b] ++ l).
  rewrite stuff_app, IH, stuff_small by exact Hb. reflexivity.
Qed.

(** * Invariant of the buffer *)

Definition bwi (P : list bool) (s : bitw) : Prop :=
  bw_buf s = bufof P /\ bw_free s = 64 - Z.of_nat (length P) /\ (length P <= 64)%nat.

Lemma six_bits P : (48 <= length P <= 64)%nat -> byte_bits (six (bufof P)) = firstn 48 P.
Proof.
  intros L. unfold six.
  pose proof (buf_nth_byte P 0 ltac:(lia) ltac:(lia)) as B0. change (56 - 8 * Z.of_nat 0) with 56 in B0. rewrite B0. clear B0.
  pose proof (buf_nth_byte P 1 ltac:(lia) ltac:(lia)) as B1. change (56 - 8 * Z.of_nat 1) with 48 in B1. rewrite B1. clear B1.
  pose proof (buf_nth_byte P 2 ltac:(lia) ltac:(lia)) as B2. change (56 - 8 * Z.of_nat 2) with 40 in B2. rewrite B2. clear B2.
  pose proof (buf_nth_byte P 3 ltac:(lia) ltac:(lia)) as B3. change (56 - 8 * Z.of_nat 3) with 32 in B3. rewrite B3. clear B3.
  pose proof (buf_nth_byte P 4 ltac:(lia) ltac:(lia)) as B4. change (56 - 8 * Z.of_nat 4) with 24 in B4. rewrite B4. clear B4.
  pose proof (buf_nth_byte P 5 ltac:(lia) ltac:(lia)) as B5. change (56 - 8 * Z.of_nat 5) with 16 in B5. rewrite B5. clear B5.
  change (?a :: ?b :: ?c :: ?d :: ?e :: [?f]) with ([a] ++ [b] ++ [c] ++ [d] ++ [e] ++ [f]).
  rewrite !byte_bits_app.
  rewrite !byte_bits_mval by (rewrite firstn_length, skipn_length; lia).
  assert (F : forall n m (l : list bool), firstn n l ++ firstn m (skipn n l) = firstn (n + m) l).
  { clear. intros n m l. revert l; induction n as [|n IH]; intros [|x l]; cbn [firstn skipn app Nat.add]; auto.
    - rewrite firstn_nil. reflexivity.
    - f_equal. apply IH. }
  cbn [Nat.mul]. rewrite !app_assoc. change (skipn (8 * 0) P) with P.
  change (8 * 1)%nat with 8%nat. change (8 * 2)%nat with 16%nat. change (8 * 3)%nat with 24%nat.
  change (8 * 4)%nat with 32%nat. change (8 * 5)%nat with 40%nat.
  rewrite (F 8 8)%nat, (F (8 + 8) 8)%nat, (F (8 + 8 + 8) 8)%nat, (F (8 + 8 + 8 + 8) 8)%nat, (F (8 + 8 + 8 + 8 + 8) 8)%nat. reflexivity.
Qed.

Lemma buf_byte_range x sh : 0 <= sh -> is_byte (buf_byte x sh).
Proof. intros H. rewrite buf_byte_spec by exact H. unfold is_byte. apply Z.mod_pos_bound. lia. Qed.

Lemma six_bytes buf : bytes (six buf).
Proof. unfold six. repeat (apply bytes_cons; split; [apply buf_byte_range; lia|]). constructor. Qed.

Lemma discharge_ok P s : bwi P s -> (48 <= length P <= 64)%nat ->
  exists s' l, bw_discharge s = Some s' /\ bout s' = bout s ++ stuff l /\ byte_bits l = firstn 48 P /\ bytes l
    /\ bwi (skipn 48 P) s' /\ bw_ok s' = bw_ok s.
Proof.
  intros [Eb [Ef _]] L. unfold bw_discharge.
  destruct (reserve_fields 12 s) as [F1 [F2 F3]].
  assert (R : room 12 (bw_reserve 12 s)) by (apply reserve_room; unfold chunk_size; lia).
  rewrite F1.
  set (s1 := bw_reserve 12 s) in *.
  assert (E : exists s2, (if has_zero_byte (Z.lor (2 ^ 64 - 1 - bw_buf s) 65535) then bw_bytes bw_emit (bw_buf s) s1
            else bw_bytes bw_put (bw_buf s) s1) = Some s2 /\ s2 = app_cur s1 (stuff (six (bw_buf s)))).
  { destruct (has_zero_byte _) eqn:Z0; [rewrite bytes_emit by exact R; eauto|].
    rewrite bytes_put by exact R. eexists; split; [reflexivity|]. f_equal. symmetry. apply stuff_none.
    assert (B : 0 <= bw_buf s < 2 ^ 64) by (rewrite Eb; apply bufof_range; lia).
    pose proof (fun j H => fast_path_safe (bw_buf s) j B H Z0) as FP.
    unfold six. repeat constructor.
    - apply (FP 7%nat); lia.
    - apply (FP 6%nat); lia.
    - apply (FP 5%nat); lia.
    - apply (FP 4%nat); lia.
    - apply (FP 3%nat); lia.
    - apply (FP 2%nat); lia. }
  destruct E as [s2 [-> ->]]. cbn [obind].
  eexists; exists (six (bw_buf s)). split; [reflexivity|]. split; [|split; [|split; [|split]]].
  - transitivity (bout (app_cur s1 (stuff (six (bw_buf s))))); [reflexivity|].
    rewrite app_cur_out. unfold s1. rewrite reserve_out. reflexivity.
  - rewrite Eb. apply six_bits; lia.
  - apply six_bytes.
  - split; [|split]; cbn [bw_buf bw_free].
    + rewrite Eb. change 48 with (Z.of_nat 48). apply buf_shift; lia.
    + cbn [app_cur bw_free]. rewrite F2, Ef, skipn_length. lia.
    + rewrite skipn_length. lia.
  - cbn [bw_ok app_cur]. exact F3.
Qed.

Lemma write_ok P s n v : bwi P s -> (length P <= 47)%nat -> 0 < n <= 16 -> 0 <= v < 2 ^ n ->
  exists s' l P', bw_write n v s = Some s' /\ bout s' = bout s ++ stuff l /\ bytes l
    /\ byte_bits l ++ P' = P ++ mbits (Z.to_nat n) v /\ bwi P' s' /\ (length P' <= 47)%nat /\ bw_ok s' = bw_ok s.
Proof.
  intros [Eb [Ef _]] L Hn Hv. unfold bw_write.
  destruct (Z.eqb_spec n 0); [lia|].
  destruct (Z.ltb_spec (bw_free s - n) 0); [lia|]. destruct (Z.leb_spec 64 (bw_free s - n)); [lia|].
  cbn [orb].
  set (P1 := P ++ mbits (Z.to_nat n) v).
  assert (L1 : length P1 = (length P + Z.to_nat n)%nat) by (unfold P1; rewrite app_length, mbits_length; reflexivity).
  assert (I1 : bwi P1 (mkBW (bw_chunks s) (bw_cur s) (Z.lor (bw_buf s) (Z.shiftl v (bw_free s - n) mod 2 ^ 64)) (bw_free s - n) (bw_ok s))).
  { split; [|split]; cbn [bw_buf bw_free]; [|lia|lia].
    rewrite Eb. unfold bufof, P1. rewrite mval_app, mval_mbits, mbits_length, Z2Nat.id by lia.
    rewrite (Z.mod_small v) by lia. rewrite app_length, mbits_length.
    rewrite Z.shiftl_mul_pow2 by lia. set (f := bw_free s - n).
    replace (64 - Z.of_nat (length P + Z.to_nat n)) with f by (unfold f; lia).
    pose proof (pow2_pos f ltac:(lia)) as Pf.
    assert (Hlow : 0 <= v * 2 ^ f < 2 ^ (64 - Z.of_nat (length P))).
    { replace (64 - Z.of_nat (length P)) with (n + f) by (unfold f; lia). rewrite Z.pow_add_r by lia. nia. }
    rewrite (Z.mod_small (v * 2 ^ f)).
    2:{ split; [lia|]. apply Z.lt_le_trans with (2 ^ (64 - Z.of_nat (length P))); [lia|]. apply Z.pow_le_mono_r; lia. }
    rewrite Z.lor_comm, lor_disjoint_add by lia.
    replace (64 - Z.of_nat (length P)) with (n + f) by (unfold f; lia). rewrite Z.pow_add_r by lia. ring. }
  destruct (Z.leb_spec (bw_free s - n) 16) as [Lf|Lf].
  - destruct (discharge_ok P1 _ I1 ltac:(lia)) as [s' [l [E [O [B [Y [I' K]]]]]]].
    exists s', l, (skipn 48 P1). split; [exact E|]. split; [exact O|]. split; [exact Y|].
    split; [rewrite B; apply firstn_skipn|]. split; [exact I'|]. split; [rewrite skipn_length; lia|exact K].
  - eexists; exists [], P1. split; [reflexivity|]. split; [unfold stuff; cbn [flat_map]; rewrite app_nil_r; reflexivity|].
    split; [constructor|]. split; [reflexivity|]. split; [exact I1|]. split; [lia|reflexivity].
Qed.

(** * Byte boundaries *)

Lemma drain_ok : forall fuel P s, bwi P s -> (length P <= 8 * fuel)%nat -> room (2 * Z.of_nat fuel) s ->
  exists s' l P', bw_drain fuel s = Some s' /\ bout s' = bout s ++ stuff l /\ bytes l
    /\ byte_bits l ++ P' = P /\ bwi P' s' /\ (length P' < 8)%nat /\ bw_ok s' = bw_ok s
    /\ (length (bw_cur s') <= length (bw_cur s) + 2 * (length P / 8))%nat.
Proof.
  induction fuel as [|f IH]; intros P s I L R.
  - exists s, [], P. cbn [bw_drain]. split; [reflexivity|]. split; [unfold stuff; cbn [flat_map]; rewrite app_nil_r; reflexivity|].
    split; [constructor|]. split; [reflexivity|]. split; [exact I|]. split; [lia|]. split; [reflexivity|lia].
  - cbn [bw_drain]. destruct I as [Eb [Ef L64]].
    destruct (Z.leb_spec (bw_free s) 56) as [H|H].
    + rewrite emit_ok by (unfold room in *; lia). cbn [obind].
      set (s1 := mkBW _ _ _ _ _).
      assert (I1 : bwi (skipn 8 P) s1).
      { split; [|split]; unfold s1; cbn [bw_buf bw_free].
        - rewrite Eb. change 8 with (Z.of_nat 8) at 1. apply buf_shift; lia.
        - rewrite Ef, skipn_length. lia.
        - rewrite skipn_length; lia. }
      pose proof (stuff_len1 (buf_byte (bw_buf s) 56)) as SL.
      destruct (IH (skipn 8 P) s1 I1) as [s' [l [P' [E [O [Y [B [I' [L' [K LC]]]]]]]]]].
      { rewrite skipn_length; lia. }
      { unfold room, s1 in *. cbn [bw_cur app_cur]. rewrite app_length. lia. }
      exists s', (buf_byte (bw_buf s) 56 :: l), P'. split; [exact E|]. split; [|split; [|split; [|split; [|split; [|split]]]]]; auto.
      * rewrite O. change (bout s1) with (bout (app_cur s (stuff [buf_byte (bw_buf s) 56]))).
        rewrite app_cur_out. change (?a :: l) with ([a] ++ l). rewrite stuff_app, app_assoc. reflexivity.
      * apply bytes_cons. split; [apply buf_byte_range; lia|exact Y].
      * change (?a :: l) with ([a] ++ l). rewrite byte_bits_app, <- app_assoc, B.
        rewrite Eb, buf_top, byte_bits_mval by (rewrite ?firstn_length; lia). apply firstn_skipn.
      * rewrite LC. unfold s1. cbn [bw_cur app_cur]. rewrite app_length, skipn_length.
        assert (D : (length P / 8 = (length P - 8) / 8 + 1)%nat).
        { replace (length P) with ((length P - 8) + 1 * 8)%nat at 1 by lia. apply Nat.div_add. lia. }
        lia.
    + exists s, [], P. split; [reflexivity|]. split; [unfold stuff; cbn [flat_map]; rewrite app_nil_r; reflexivity|].
      split; [constructor|]. split; [reflexivity|]. split; [split; auto|]. split; [lia|]. split; [reflexivity|lia].
Qed.

(** Specification of the padding: the number of bits missing in the last byte, and where
    they come from. *)
Definition pad_need (n : nat) : nat := ((8 - n mod 8) mod 8)%nat.

Definition padding (n : nat) (pads : option (list Z)) : option (list bool * option (list Z)) :=
  match pads with
  | None => Some (repeat true n, None)
  | Some src =>
      if (n <=? length src)%nat
      then Some (map (fun b => negb (b =? 0)) (firstn n src), Some (skipn n src))
      else None
  end.

Lemma mval_ones n : mval (repeat true n) = 2 ^ Z.of_nat n - 1.
Proof.
  induction n as [|n IH]; [reflexivity|]. cbn [repeat]. change (true :: repeat true n) with ([true] ++ repeat true n).
  rewrite mval_app, IH, repeat_length, pow2_S, mval_one. cbn [b2z]. lia.
Qed.

Lemma pad_pattern_spec : forall n acc src, (n + length acc <= 8)%nat ->
  pad_pattern n (mval acc) src =
  if (n <=? length src)%nat then Some (mval (acc ++ map (fun b => negb (b =? 0)) (firstn n src)), skipn n src) else None.
Proof.
  induction n as [|n IH]; intros acc src L.
  - cbn [pad_pattern Nat.leb firstn map skipn]. rewrite app_nil_r. reflexivity.
  - cbn [pad_pattern]. destruct src as [|b src]; [reflexivity|].
    assert (E : Z.lor (Z.shiftl (mval acc) 1 mod 256) (if b =? 0 then 0 else 1) = mval (acc ++ [negb (b =? 0)])).
    { rewrite mval_app. cbn [length]. change (2 ^ Z.of_nat 1) with 2. rewrite Z.shiftl_mul_pow2 by lia. change (2 ^ 1) with 2.
      pose proof (mval_range acc) as R.
      assert (2 ^ Z.of_nat (length acc) <= 2 ^ 7) by (apply Z.pow_le_mono_r; lia). change (2 ^ 7) with 128 in *.
      rewrite Z.mod_small by lia. rewrite Z.lor_comm. change 2 with (2 ^ 1) at 1. rewrite lor_disjoint_add by (destruct (b =? 0); lia).
      change (2 ^ 1) with 2. rewrite mval_one. destruct (b =? 0); cbn [negb b2z]; lia. }
    rewrite E, IH by (rewrite app_length; cbn [length]; lia).
    cbn [length Nat.leb firstn map skipn]. rewrite <- app_assoc. reflexivity.
Qed.

Lemma last_byte a pat t : 0 <= a < 2 ^ t -> (0 < t < 8) -> 0 <= pat < 2 ^ (8 - t) ->
  Z.lor (Z.land (a * 2 ^ (8 - t)) (Z.lnot (Z.shiftr 255 t))) pat = a * 2 ^ (8 - t) + pat.
Proof.
  intros Ha Ht Hp.
  assert (M : Z.shiftr 255 t = 2 ^ (8 - t) - 1).
  { rewrite Z.shiftr_div_pow2 by lia.
    assert (C : t = 1 \/ t = 2 \/ t = 3 \/ t = 4 \/ t = 5 \/ t = 6 \/ t = 7) by lia.
    destruct C as [->|[->|[->|[->|[->|[->| ->]]]]]]; reflexivity. }
  assert (E : Z.land (a * 2 ^ (8 - t)) (Z.lnot (Z.shiftr 255 t)) = a * 2 ^ (8 - t)).
  { rewrite M. rewrite <- Z.ldiff_land.
    assert (O : 2 ^ (8 - t) - 1 = Z.ones (8 - t)) by (rewrite Z.ones_equiv; lia).
    rewrite O. rewrite <- Z.shiftl_mul_pow2 by lia. rewrite Z.ldiff_ones_r by lia.
    rewrite Z.shiftr_shiftl_l by lia. rewrite Z.sub_diag, Z.shiftl_0_r. reflexivity. }
  rewrite E, Z.lor_comm, lor_disjoint_add by lia. lia.
Qed.

Lemma jump_ok P s pads : bwi P s -> (length P <= 64)%nat ->
  match padding (pad_need (length P)) pads with
  | None => bw_jump pads s = WFail
  | Some (pb, pads') =>
      exists s' l, bw_jump pads s = WOk (s', pads') /\ bout s' = bout s ++ stuff l /\ bytes l
        /\ byte_bits l = P ++ pb /\ bwi [] s' /\ bw_ok s' = bw_ok s
  end.
Proof.
  intros I L. pose proof I as [Eb [Ef _]].
  unfold bw_jump.
  assert (N : Z.to_nat (Z.land (bw_free s) 7) = pad_need (length P)).
  { unfold pad_need. rewrite Ef. change 7 with (2 ^ 3 - 1). rewrite land_ones_mod by lia. change (2 ^ 3) with 8.
    rewrite <- (Nat2Z.id ((8 - length P mod 8) mod 8)). f_equal.
    rewrite Nat2Z.inj_mod, Nat2Z.inj_sub, Nat2Z.inj_mod by (pose proof (Nat.mod_upper_bound (length P) 8); lia).
    change (Z.of_nat 8) with 8. rewrite Zminus_mod_idemp_r.
    replace (64 - Z.of_nat (length P)) with (8 - Z.of_nat (length P) + 7 * 8) by lia. rewrite Z.mod_add by lia. reflexivity. }
  rewrite N. set (n := pad_need (length P)) in *.
  assert (N8 : (n < 8)%nat) by (unfold n, pad_need; apply Nat.mod_upper_bound; lia).
  assert (Fin : forall pb pads', length pb = n ->
    exists s' l, (match (let? s1 := bw_drain 8 (bw_reserve 16 s) in
             let? s2 := (if bw_free s1 <? 64 then bw_emit (Z.lor (Z.land (Z.shiftr (bw_buf s1) 56) (Z.lnot (Z.shiftr 255 (64 - bw_free s1)))) (mval pb)) s1
                else Some s1) in
             Some (mkBW (bw_chunks s2) (bw_cur s2) 0 64 (bw_ok s2))) with
      | None => WUB
      | Some s' => WOk (s', pads')
      end : wres (bitw * option (list Z))) = WOk (s', pads') /\ bout s' = bout s ++ stuff l /\ bytes l
        /\ byte_bits l = P ++ pb /\ bwi [] s' /\ bw_ok s' = bw_ok s).
  { intros pb pads' Lp.
    destruct (reserve_fields 16 s) as [F1 [F2 F3]].
    assert (R : room 16 (bw_reserve 16 s)) by (apply reserve_room; unfold chunk_size; lia).
    destruct (drain_ok 8 P (bw_reserve 16 s)) as [s1 [l [P' [E [O [Y [B [I' [L' [K LC]]]]]]]]]].
    { split; [congruence|split; [congruence|exact L]]. }
    { lia. } { exact R. }
    rewrite E. cbn [obind]. destruct I' as [Eb' [Ef' _]].
    assert (LP : (length P = 8 * length l + length P')%nat).
    { rewrite <- B, app_length, byte_bits_length. reflexivity. }
    assert (Nn : n = ((8 - length P') mod 8)%nat).
    { unfold n, pad_need. rewrite LP. f_equal. f_equal. rewrite Nat.add_comm, Nat.mul_comm, Nat.mod_add, Nat.mod_small by lia. reflexivity. }
    destruct (Z.ltb_spec (bw_free s1) 64) as [H|H].
    - assert (L0 : (0 < length P' < 8)%nat) by lia.
      rewrite Nat.mod_small in Nn by lia.
      set (c := Z.lor _ _).
      assert (Ec : c = mval (P' ++ pb)).
      { unfold c. rewrite Eb', Ef'. unfold bufof.
        replace (64 - (64 - Z.of_nat (length P'))) with (Z.of_nat (length P')) by lia.
        rewrite Z.shiftr_div_pow2 by lia.
        replace (2 ^ (64 - Z.of_nat (length P'))) with (2 ^ (8 - Z.of_nat (length P')) * 2 ^ 56) by (rewrite <- Z.pow_add_r by lia; f_equal; lia).
        rewrite Z.mul_assoc, Z.div_mul by (apply Z.pow_nonzero; lia).
        pose proof (mval_range P'). pose proof (mval_range pb) as Rp. rewrite Lp in Rp.
        replace (Z.of_nat n) with (8 - Z.of_nat (length P')) in Rp by lia.
        rewrite last_byte by lia. rewrite mval_app, Lp. replace (Z.of_nat n) with (8 - Z.of_nat (length P')) by lia. reflexivity. }
      rewrite emit_ok.
      2:{ unfold room in *. assert (length P / 8 <= 7)%nat.
          { apply Nat.lt_succ_r. apply Nat.div_lt_upper_bound; [lia|]. assert (length l <> 8)%nat by lia. lia. }
          lia. }
      cbn [obind]. eexists; exists (l ++ [c]). split; [reflexivity|]. split; [|split; [|split; [|split]]].
      + transitivity (bout (app_cur s1 (stuff [c]))); [reflexivity|]. rewrite app_cur_out, O, reserve_out, stuff_app, app_assoc. reflexivity.
      + apply bytes_app; split; [exact Y|]. apply bytes_cons; split; [|constructor].
        rewrite Ec. unfold is_byte. pose proof (mval_range (P' ++ pb)) as Rr. rewrite app_length, Lp, Nn in Rr.
        replace (length P' + (8 - length P'))%nat with 8%nat in Rr by lia. exact Rr.
      + rewrite byte_bits_app, Ec, byte_bits_mval by (rewrite app_length; lia). rewrite app_assoc, B. reflexivity.
      + split; [reflexivity|]. split; [reflexivity|]. cbn [length]; lia.
      + cbn [bw_ok app_cur]. rewrite K. exact F3.
    - assert (L0 : length P' = 0%nat) by lia. destruct P' as [|? ?]; [|discriminate].
      cbn [length] in Nn. change ((8 - 0) mod 8)%nat with 0%nat in Nn.
      destruct pb as [|? ?]; [|cbn [length] in Lp; lia].
      cbn [obind]. eexists; exists l. split; [reflexivity|]. split; [|split; [|split; [|split]]].
      + transitivity (bout s1); [reflexivity|]. rewrite O, reserve_out. reflexivity.
      + exact Y.
      + rewrite app_nil_r in *. exact B.
      + split; [reflexivity|]. split; [reflexivity|]. cbn [length]; lia.
      + cbn [bw_ok]. rewrite K. exact F3. }
  unfold padding. destruct pads as [src|].
  - change 0 with (mval []). rewrite pad_pattern_spec by (cbn [length]; lia).
    destruct (n <=? length src)%nat eqn:Le; [|reflexivity].
    cbn [app]. destruct (Fin (map (fun b => negb (b =? 0)) (firstn n src)) (Some (skipn n src))) as [s' [l X]].
    { rewrite map_length, firstn_length. apply Nat.leb_le in Le. lia. }
    exists s', l. exact X.
  - replace (Z.shiftl 1 (Z.of_nat n) - 1) with (mval (repeat true n)) by (rewrite mval_ones, Z.shiftl_mul_pow2 by lia; lia).
    destruct (Fin (repeat true n) None) as [s' [l X]]; [apply repeat_length|]. exists s', l. exact X.
Qed.

(** * Whole sequences of calls *)

(** What the calls mean: [acc] are the bits written since the last byte boundary; the
    result is the bytes of the completed segments, the bits of the last incomplete one
    and the padding bits left. *)
Fixpoint render (acc : list bool) (ops : list wop) (pads : option (list Z))
  : option (list Z * list bool * option (list Z)) :=
  match ops with
  | [] => Some ([], acc, pads)
  | WBitsOp n v :: r => render (acc ++ mbits (Z.to_nat n) v) r pads
  | WJumpOp :: r =>
      match padding (pad_need (length acc)) pads with
      | None => None
      | Some (pb, pads') =>
          let seg := acc ++ pb in
          match render [] r pads' with
          | None => None
          | Some (t, acc', pads'') => Some (stuff (packm (length seg / 8) seg) ++ t, acc', pads'')
          end
      end
  | WMarkerOp m :: r =>
      match acc with
      | [] =>
          match render [] r pads with
          | None => None
          | Some (t, acc', pads'') => Some (255 :: m :: t, acc', pads'')
          end
      | _ => None
      end
  end.

Definition op_ok (o : wop) : Prop :=
  match o with WBitsOp n v => 0 < n <= 16 /\ 0 <= v < 2 ^ n | _ => True end.

Lemma marker_ok m s : bwi [] s -> exists s', bw_marker m s = Some s' /\ bout s' = bout s ++ [255; m] /\ bwi [] s' /\ bw_ok s' = bw_ok s.
Proof.
  intros [Eb [Ef _]]. unfold bw_marker. destruct (reserve_fields 2 s) as [F1 [F2 F3]].
  assert (R : room 2 (bw_reserve 2 s)) by (apply reserve_room; unfold chunk_size; lia).
  rewrite put_ok by (unfold room in *; lia). cbn [obind].
  rewrite put_ok by (eapply app_cur_room; [exact R|cbn [length]; lia]).
  rewrite app_cur_app. eexists; split; [reflexivity|]. rewrite app_cur_out, reserve_out.
  split; [reflexivity|]. split; [|exact F3]. split; [cbn [app_cur bw_buf]; congruence|split; [cbn [app_cur bw_free]; congruence|cbn [length]; lia]].
Qed.

Lemma pad_need_total n : ((n + pad_need n) mod 8 = 0)%nat.
Proof.
  unfold pad_need. pose proof (Nat.div_mod n 8 ltac:(lia)) as D. pose proof (Nat.mod_upper_bound n 8 ltac:(lia)) as B.
  destruct (Nat.eq_dec (n mod 8) 0) as [Z|N].
  - rewrite Z. change ((8 - 0) mod 8)%nat with 0%nat. rewrite Nat.add_0_r. exact Z.
  - rewrite (Nat.mod_small (8 - n mod 8)) by lia. replace (n + (8 - n mod 8))%nat with ((n / 8 + 1) * 8)%nat by lia. apply Nat.mod_mul. lia.
Qed.

Lemma padding_length n pads pb pads' : padding n pads = Some (pb, pads') -> length pb = n.
Proof.
  unfold padding. destruct pads as [src|].
  - destruct (Nat.leb_spec n (length src)); [|discriminate]. intros E; inversion E. rewrite map_length, firstn_length. lia.
  - intros E; inversion E. apply repeat_length.
Qed.

Theorem run_render : forall ops pads s done P out acc' pads',
  Forall op_ok ops -> bwi P s -> (length P <= 47)%nat -> bytes done ->
  render (byte_bits done ++ P) ops pads = Some (out, acc', pads') ->
  exists s' done' P', bw_run ops pads s = WOk (s', pads') /\ bw_ok s' = bw_ok s
    /\ bwi P' s' /\ bytes done' /\ acc' = byte_bits done' ++ P'
    /\ forall base, bout s = base ++ stuff done -> bout s' = base ++ out ++ stuff done'.
Proof.
  induction ops as [|o ops IH]; intros pads s done P out acc' pads' W I L Yd E.
  - cbn [render] in E. inversion E; subst. exists s, done, P. cbn [bw_run].
    split; [reflexivity|]. split; [reflexivity|]. split; [exact I|]. split; [exact Yd|]. split; [reflexivity|].
    intros base Ob. cbn [app]. exact Ob.
  - pose proof (Forall_inv W) as Wo. apply Forall_inv_tail in W. destruct o as [n v| |m]; cbn [render bw_run] in *.
    + destruct Wo as [Wn Wv].
      destruct (write_ok P s n v I L Wn Wv) as [s1 [l [P1 [E1 [O1 [Y1 [B1 [I1 [L1 K1]]]]]]]]].
      rewrite E1. rewrite <- app_assoc, <- B1, app_assoc, <- byte_bits_app in E.
      destruct (IH pads s1 (done ++ l) P1 out acc' pads' W I1 L1 (proj2 (bytes_app _ _) (conj Yd Y1)) E)
        as [s' [done' [P' [R [K [I' [Y' [A' O']]]]]]]].
      exists s', done', P'. split; [exact R|]. split; [congruence|]. split; [exact I'|]. split; [exact Y'|]. split; [exact A'|].
      intros base Ob. apply O'. rewrite O1, Ob, stuff_app, app_assoc. reflexivity.
    + assert (PN : pad_need (length (byte_bits done ++ P)) = pad_need (length P)).
      { unfold pad_need. rewrite app_length, byte_bits_length. rewrite Nat.add_comm, Nat.mul_comm, Nat.mod_add by lia. reflexivity. }
      rewrite PN in E. pose proof (jump_ok P s pads I ltac:(lia)) as J.
      destruct (padding (pad_need (length P)) pads) as [[pb pads1]|] eqn:EP; [|discriminate].
      destruct J as [s1 [l [E1 [O1 [Y1 [B1 [I1 K1]]]]]]]. rewrite E1.
      destruct (render [] ops pads1) as [[[t acc1] pads2]|] eqn:ER; [|discriminate].
      injection E as <- <- <-.
      change (@nil bool) with (byte_bits [] ++ @nil bool) in ER.
      destruct (IH pads1 s1 [] [] t acc1 pads2 W I1 ltac:(cbn [length]; lia) ltac:(constructor) ER)
        as [s' [done' [P' [R [K [I' [Y' [A' O']]]]]]]].
      exists s', done', P'. split; [exact R|]. split; [congruence|]. split; [exact I'|]. split; [exact Y'|]. split; [exact A'|].
      intros base Ob.
      assert (Eseg : packm (length ((byte_bits done ++ P) ++ pb) / 8) ((byte_bits done ++ P) ++ pb) = done ++ l).
      { assert (E2 : (byte_bits done ++ P) ++ pb = byte_bits (done ++ l)) by (rewrite byte_bits_app, B1, app_assoc; reflexivity).
        rewrite E2. rewrite byte_bits_length, Nat.mul_comm, Nat.div_mul by lia.
        apply byte_bits_inj.
        - apply packm_bytes. rewrite byte_bits_length. lia.
        - apply bytes_app; auto.
        - apply packm_bits. apply byte_bits_length. }
      change (fst (Nat.divmod ?n 7 0 7)) with (n / 8)%nat. rewrite Eseg, stuff_app. rewrite <- app_assoc.
      rewrite (O' (base ++ stuff done ++ stuff l)).
      * rewrite <- !app_assoc. reflexivity.
      * rewrite O1, Ob. change (stuff []) with (@nil Z). rewrite app_nil_r, app_assoc. reflexivity.
    + destruct (byte_bits done ++ P) as [|? ?] eqn:EA; [|discriminate].
      apply app_eq_nil in EA as [Ed EP]. apply byte_bits_nil in Ed. subst done P.
      destruct (marker_ok m s I) as [s1 [E1 [O1 [I1 K1]]]]. rewrite E1.
      destruct (render [] ops pads) as [[[t acc1] pads2]|] eqn:ER; [|discriminate].
      injection E as <- <- <-.
      change (@nil bool) with (byte_bits [] ++ @nil bool) in ER.
      destruct (IH pads s1 [] [] t acc1 pads2 W I1 ltac:(cbn [length]; lia) ltac:(constructor) ER)
        as [s' [done' [P' [R [K [I' [Y' [A' O']]]]]]]].
      exists s', done', P'. split; [exact R|]. split; [congruence|]. split; [exact I'|]. split; [exact Y'|]. split; [exact A'|].
      intros base Ob. rewrite (O' (base ++ [255; m])).
      * rewrite <- !app_assoc. reflexivity.
      * rewrite O1, Ob. change (stuff []) with (@nil Z). rewrite !app_nil_r. reflexivity.
Qed.
