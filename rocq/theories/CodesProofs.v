(** Proofs about the integer codes, and the "decodes" predicate used for every
    bit section. *)
From Verif Require Import Base BitModel BitProofs CodesModel.

(** [dec k p B a]: on the bit string [B] followed by at least [k] more bits,
    [p] returns [a] and leaves exactly what follows [B]. *)
Definition dec {A} (k : nat) (p : prog A) (B : list bool) (a : A) : Prop :=
  forall strict rest, (k <= length rest)%nat -> arun strict p (B ++ rest) = Some (a, rest).

Lemma dec_ret {A} k (a : A) : dec k (Ret a) [] a.
Proof. intros s r _. reflexivity. Qed.

Lemma dec_mono {A} k k' (p : prog A) B a : (k <= k')%nat -> dec k p B a -> dec k' p B a.
Proof. intros H D s r Hr. apply D. lia. Qed.

Lemma dec_bind {A B} k k1 (p : prog A) (g : A -> prog B) B1 B2 a b :
  dec k1 p B1 a -> dec k (g a) B2 b -> (k1 <= k + length B2)%nat -> dec k (bind p g) (B1 ++ B2) b.
Proof.
  intros D1 D2 Hk s r Hr. rewrite arun_bind, <- app_assoc, D1 by (rewrite app_length; lia).
  apply D2; exact Hr.
Qed.

Lemma dec_Read {A} k n (K : Z -> prog A) v B a :
  0 <= v < 2 ^ Z.of_nat n -> dec k (K v) B a -> dec k (Read n K) (bits_of n v ++ B) a.
Proof. intros Hv D s r Hr. rewrite <- app_assoc, arun_Read by exact Hv. apply D; exact Hr. Qed.

Lemma dec_Need {A} k n (p : prog A) B a : (n <= length B + k)%nat -> dec k p B a -> dec k (Need n p) B a.
Proof.
  intros Hn D s r Hr. cbn [arun]. rewrite app_length.
  destruct (Nat.ltb_spec (length B + length r) n); [lia|]. rewrite andb_false_r. apply D; exact Hr.
Qed.

Lemma dec_Chk {A} k (p : prog A) B a : dec k p B a -> dec k (Chk p) B a.
Proof. intros D s r Hr. cbn [arun]. apply D; exact Hr. Qed.

Lemma fields_bits_app l1 l2 : fields_bits (l1 ++ l2) = fields_bits l1 ++ fields_bits l2.
Proof. induction l1 as [|[n v] l1 IH]; cbn [app fields_bits]; [reflexivity|]. rewrite IH, app_assoc; reflexivity. Qed.

Lemma fields_ok_app l1 l2 : fields_ok (l1 ++ l2) <-> fields_ok l1 /\ fields_ok l2.
Proof. unfold fields_ok. apply Forall_app. Qed.

Lemma fields_ok_cons n v l : fields_ok ((n, v) :: l) <-> ((n <= 56)%nat /\ 0 <= v < 2 ^ Z.of_nat n) /\ fields_ok l.
Proof. unfold fields_ok. split; [intros H; inversion H; auto|intros [H1 H2]; constructor; auto]. Qed.

Lemma fields_ok_nil : fields_ok [].
Proof. constructor. Qed.

Ltac fok := repeat (apply fields_ok_cons; split; [split; [lia|cbn; lia]|]); try apply fields_ok_nil.

Lemma pow1 : 2 ^ Z.of_nat 1 = 2. Proof. reflexivity. Qed.

(** ** Base 128 *)

Lemma land127 v : Z.land v 127 = v mod 128.
Proof. change 127 with (2 ^ 7 - 1). rewrite land_ones_mod by lia. reflexivity. Qed.

Lemma shr7 v : Z.shiftr v 7 = v / 128.
Proof. rewrite Z.shiftr_div_pow2 by lia. reflexivity. Qed.

Lemma lor128 a : 0 <= a < 128 -> Z.lor a 128 = a + 128.
Proof. intros H. change 128 with (1 * 2 ^ 7) at 1. rewrite lor_disjoint_add; lia. Qed.

Lemma b128_cont a : 0 <= a < 128 -> Z.land (a + 128) 128 =? 0 = false /\ Z.land (a + 128) 127 = a.
Proof.
  intros H. split.
  - apply Z.eqb_neq. intros E.
    assert (T : Z.testbit (Z.land (a + 128) 128) 7 = false) by (rewrite E; apply Z.bits_0).
    rewrite Z.land_spec, <- lor128, Z.lor_spec in T by exact H.
    change (Z.testbit 128 7) with true in T. rewrite orb_true_r in T. discriminate.
  - rewrite land127. replace (a + 128) with (a + 1 * 128) by lia. rewrite Z.mod_add by lia. apply Z.mod_small; exact H.
Qed.

Lemma b128_stop a : 0 <= a < 128 -> Z.land a 128 =? 0 = true /\ Z.land a 127 = a.
Proof.
  intros H. split.
  - apply Z.eqb_eq. apply Z.bits_inj'. intros i Hi. rewrite Z.land_spec, Z.bits_0.
    destruct (Z.eq_dec i 7) as [->|Hn].
    + replace a with (a mod 2 ^ 7) by (apply Z.mod_small; exact H). rewrite Z.mod_pow2_bits_high by lia. reflexivity.
    + replace (Z.testbit 128 i) with false; [apply andb_false_r|].
      change 128 with (2 ^ 7). symmetry. apply Z.pow2_bits_false. lia.
  - rewrite land127. apply Z.mod_small; exact H.
Qed.

Lemma b128_accum v i d : 0 <= v < 2 ^ (7 * Z.of_nat i) -> 0 <= d < 128 -> (i <= 8)%nat ->
  Z.lor v (Z.shiftl d (Z.of_nat (i * 7)) mod 2 ^ 64) = v + d * 2 ^ (7 * Z.of_nat i) /\
  0 <= v + d * 2 ^ (7 * Z.of_nat i) < 2 ^ (7 * Z.of_nat (S i)).
Proof.
  intros Hv Hd Hi. replace (Z.of_nat (i * 7)) with (7 * Z.of_nat i) by lia.
  rewrite Z.shiftl_mul_pow2 by lia.
  assert (E : 2 ^ (7 * Z.of_nat (S i)) = 128 * 2 ^ (7 * Z.of_nat i)).
  { replace (7 * Z.of_nat (S i)) with (7 + 7 * Z.of_nat i) by lia. rewrite Z.pow_add_r by lia. reflexivity. }
  assert (P : 0 < 2 ^ (7 * Z.of_nat i)) by (apply pow2_pos; lia).
  assert (M : 2 ^ (7 * Z.of_nat (S i)) <= 2 ^ 64) by (apply Z.pow_le_mono_r; lia).
  rewrite (Z.mod_small (d * _)) by nia.
  rewrite lor_disjoint_add by lia. split; [reflexivity|]. rewrite E. nia.
Qed.

Lemma base128_loop_roundtrip : forall fe fd i acc v rest,
  (1 <= fe)%nat -> (i + fd = 9)%nat ->
  0 <= acc < 2 ^ (7 * Z.of_nat i) -> 0 <= v < 2 ^ (7 * Z.of_nat fe) -> 0 <= v < 2 ^ (7 * Z.of_nat fd) ->
  (1 <= fd)%nat ->
  decode_base128_loop fd i acc (encode_base128_loop fe v ++ rest) = BOk (acc + v * 2 ^ (7 * Z.of_nat i)) rest.
Proof.
  induction fe as [|fe IH]; intros fd i acc v rest He Hi Ha Hve Hvd Hd; [lia|].
  destruct fd as [|fd]; [lia|]. cbn [encode_base128_loop decode_base128_loop app].
  rewrite shr7, land127.
  assert (Hm : 0 <= v mod 128 < 128) by (apply Z.mod_pos_bound; lia).
  assert (Pe : forall k, 2 ^ (7 * Z.of_nat (S k)) = 128 * 2 ^ (7 * Z.of_nat k)).
  { intros k. replace (7 * Z.of_nat (S k)) with (7 + 7 * Z.of_nat k) by lia. rewrite Z.pow_add_r by lia. reflexivity. }
  destruct (Z.leb_spec 128 v) as [H128|H128].
  - rewrite lor128 by exact Hm. destruct (b128_cont _ Hm) as [-> ->].
    destruct (b128_accum acc i (v mod 128) Ha Hm ltac:(lia)) as [-> Hr].
    destruct (Z.ltb_spec 0 (v / 128)) as [Hq|Hq]; [|dlia].
    rewrite Pe in Hve, Hvd.
    assert (v / 128 < 2 ^ (7 * Z.of_nat fe)) by (apply Z.div_lt_upper_bound; lia).
    assert (v / 128 < 2 ^ (7 * Z.of_nat fd)) by (apply Z.div_lt_upper_bound; lia).
    destruct fe as [|fe]; [cbn in *; lia|]. destruct fd as [|fd]; [cbn in *; lia|].
    rewrite IH; try lia. f_equal. rewrite Pe.
    rewrite (Z.div_mod v 128) at 3 by lia. ring.
  - rewrite Z.lor_0_r. destruct (b128_stop _ Hm) as [-> ->].
    destruct (b128_accum acc i (v mod 128) Ha Hm ltac:(lia)) as [-> Hr].
    destruct (Z.ltb_spec 0 (v / 128)) as [Hq|Hq]; [dlia|]. cbn [app]. rewrite (Z.mod_small v) by lia. reflexivity.
Qed.

Lemma base128_roundtrip v rest : 0 <= v < 2 ^ 63 -> decode_base128 (encode_base128 v ++ rest) = BOk v rest.
Proof.
  intros H. unfold decode_base128, encode_base128. rewrite base128_loop_roundtrip; try lia.
  all: try (change (7 * Z.of_nat 10) with 70; lia). all: try (change (7 * Z.of_nat 9) with 63; lia).
  f_equal. change (2 ^ (7 * Z.of_nat 0)) with 1. lia.
Qed.

Lemma base128_fix_loop_roundtrip : forall n fd i acc v rest,
  (1 <= n)%nat -> (n <= fd)%nat -> (i + fd = 9)%nat ->
  0 <= acc < 2 ^ (7 * Z.of_nat i) -> 0 <= v < 2 ^ (7 * Z.of_nat n) ->
  decode_base128_loop fd i acc (encode_base128_fix v n ++ rest) = BOk (acc + v * 2 ^ (7 * Z.of_nat i)) rest.
Proof.
  induction n as [|n IH]; intros fd i acc v rest Hn1 Hn Hi Ha Hv; [lia|].
  destruct fd as [|fd]; [lia|]. cbn [encode_base128_fix decode_base128_loop app].
  rewrite shr7, land127.
  assert (Hm : 0 <= v mod 128 < 128) by (apply Z.mod_pos_bound; lia).
  assert (Pe : forall k, 2 ^ (7 * Z.of_nat (S k)) = 128 * 2 ^ (7 * Z.of_nat k)).
  { intros k. replace (7 * Z.of_nat (S k)) with (7 + 7 * Z.of_nat k) by lia. rewrite Z.pow_add_r by lia. reflexivity. }
  destruct n as [|n].
  - rewrite Z.lor_0_r. destruct (b128_stop _ Hm) as [-> ->].
    destruct (b128_accum acc i (v mod 128) Ha Hm ltac:(lia)) as [-> Hr].
    cbn [encode_base128_fix app]. rewrite (Z.mod_small v); [reflexivity|]. exact Hv.
  - rewrite lor128 by exact Hm. destruct (b128_cont _ Hm) as [-> ->].
    destruct (b128_accum acc i (v mod 128) Ha Hm ltac:(lia)) as [-> Hr].
    rewrite Pe in Hv.
    assert (v / 128 < 2 ^ (7 * Z.of_nat (S n))) by (apply Z.div_lt_upper_bound; lia).
    assert (0 <= v / 128) by (apply Z.div_pos; lia).
    rewrite IH; try lia. f_equal. rewrite Pe.
    rewrite (Z.div_mod v 128) at 3 by lia. ring.
Qed.

Lemma base128_fix_roundtrip v n rest : (1 <= n <= 9)%nat -> 0 <= v < 2 ^ (7 * Z.of_nat n) ->
  decode_base128 (encode_base128_fix v n ++ rest) = BOk v rest.
Proof.
  intros Hn H. unfold decode_base128. rewrite base128_fix_loop_roundtrip; try lia.
  f_equal. change (2 ^ (7 * Z.of_nat 0)) with 1. lia.
Qed.

Lemma encode_base128_bytes fuel : forall v, 0 <= v -> bytes (encode_base128_loop fuel v).
Proof.
  induction fuel as [|f IH]; intros v Hv; cbn [encode_base128_loop]; [constructor|].
  rewrite land127, shr7. assert (Hm : 0 <= v mod 128 < 128) by (apply Z.mod_pos_bound; lia).
  apply bytes_cons. split.
  - destruct (128 <=? v); [rewrite lor128 by exact Hm|rewrite Z.lor_0_r]; unfold is_byte; lia.
  - destruct (0 <? v / 128); [|constructor]. apply IH. apply Z.div_pos; lia.
Qed.

Lemma encode_base128_fix_bytes n : forall v, 0 <= v -> bytes (encode_base128_fix v n).
Proof.
  induction n as [|m IH]; intros v Hv; cbn [encode_base128_fix]; [constructor|].
  rewrite land127, shr7. assert (Hm : 0 <= v mod 128 < 128) by (apply Z.mod_pos_bound; lia).
  apply bytes_cons. split.
  - destruct m; [rewrite Z.lor_0_r|rewrite lor128 by exact Hm]; unfold is_byte; lia.
  - apply IH. apply Z.div_pos; lia.
Qed.

Lemma encode_base128_fix_length n : forall v, length (encode_base128_fix v n) = n.
Proof. induction n; intros v; cbn [encode_base128_fix length]; auto. Qed.

Lemma base128_size_ok fuel : forall v, 0 <= v < 2 ^ (7 * Z.of_nat fuel) -> (1 <= fuel)%nat ->
  length (encode_base128_loop fuel v) = base128_size_loop fuel v /\
  v < 2 ^ (7 * Z.of_nat (base128_size_loop fuel v)) /\ (1 <= base128_size_loop fuel v <= fuel)%nat /\
  (128 <= v -> 2 ^ (7 * Z.of_nat (base128_size_loop fuel v - 1)) <= v).
Proof.
  induction fuel as [|f IH]; intros v Hv Hf; [lia|].
  assert (Pe : forall k, 2 ^ (7 * Z.of_nat (S k)) = 128 * 2 ^ (7 * Z.of_nat k)).
  { intros k. replace (7 * Z.of_nat (S k)) with (7 + 7 * Z.of_nat k) by lia. rewrite Z.pow_add_r by lia. reflexivity. }
  cbn [encode_base128_loop base128_size_loop]. rewrite shr7.
  destruct (Z.leb_spec 128 v) as [H|H].
  - destruct (Z.ltb_spec 0 (v / 128)) as [Hq|Hq]; [|dlia].
    assert (Hlt : v / 128 < 2 ^ (7 * Z.of_nat f)) by (rewrite Pe in Hv; apply Z.div_lt_upper_bound; lia).
    destruct f as [|f]; [cbn in Hlt; lia|].
    destruct (IH (v / 128) ltac:(lia) ltac:(lia)) as (I1 & I2 & I3 & I4).
    cbn [length]. rewrite I1. split; [reflexivity|]. rewrite Pe. split; [dlia|]. split; [lia|].
    intros _. replace (S (base128_size_loop (S f) (v / 128)) - 1)%nat with (base128_size_loop (S f) (v / 128)) by lia.
    destruct (Z.leb_spec 128 (v / 128)) as [H2|H2].
    + specialize (I4 H2). destruct (base128_size_loop (S f) (v / 128)) as [|k] eqn:Ek; [lia|].
      rewrite Pe. replace (S k - 1)%nat with k in I4 by lia. dlia.
    + assert (base128_size_loop (S f) (v / 128) = 1%nat) as ->.
      { cbn [base128_size_loop]. destruct (Z.leb_spec 128 (v / 128)); [lia|reflexivity]. }
      change (2 ^ (7 * Z.of_nat 1)) with 128. lia.
  - destruct (Z.ltb_spec 0 (v / 128)) as [Hq|Hq]; [dlia|]. cbn [length].
    change (2 ^ (7 * Z.of_nat 1)) with 128. repeat split; lia.
Qed.

(** Reader bounds. *)
Lemma decode_base128_loop_bounds : forall fd i acc l v rest,
  0 <= acc < 2 ^ (7 * Z.of_nat i) -> (i + fd = 9)%nat -> bytes l ->
  decode_base128_loop fd i acc l = BOk v rest ->
  0 <= v < 2 ^ 63 /\ exists used, l = used ++ rest /\ (1 <= length used <= fd)%nat.
Proof.
  induction fd as [|fd IH]; intros i acc l v rest Ha Hi Hb E; cbn [decode_base128_loop] in E; [discriminate|].
  destruct l as [|b l]; [discriminate|]. apply bytes_cons in Hb as [Hb Hl].
  assert (Hd : 0 <= Z.land b 127 < 128) by (rewrite land127; apply Z.mod_pos_bound; lia).
  destruct (b128_accum acc i _ Ha Hd ltac:(lia)) as [E1 Hr]. rewrite E1 in E.
  destruct (_ =? 0).
  - injection E as <- <-. split.
    + split; [lia|]. eapply Z.lt_le_trans; [apply Hr|]. apply Z.pow_le_mono_r; lia.
    + exists [b]. split; [reflexivity|cbn [length]; lia].
  - destruct (IH (S i) _ l v rest Hr ltac:(lia) Hl E) as (H1 & used & -> & H2). split; [exact H1|].
    exists (b :: used). split; [reflexivity|cbn [length]; lia].
Qed.

Lemma decode_base128_ok l v rest : bytes l -> decode_base128 l = BOk v rest ->
  0 <= v < 2 ^ 63 /\ exists used, l = used ++ rest /\ (1 <= length used <= 9)%nat.
Proof. intros Hb E. eapply decode_base128_loop_bounds; [| |exact Hb|exact E]; [cbn; lia|reflexivity]. Qed.

(** More input does not change a verdict. *)
Lemma decode_base128_loop_more : forall fd i acc l ext,
  decode_base128_loop fd i acc (l ++ ext) =
  match decode_base128_loop fd i acc l with
  | BOk v r => BOk v (r ++ ext)
  | BBad => BBad
  | BNeed => decode_base128_loop fd i acc (l ++ ext)
  end.
Proof.
  induction fd as [|fd IH]; intros i acc l ext; cbn [decode_base128_loop]; [reflexivity|].
  destruct l as [|b l]; [reflexivity|]. cbn [app]. destruct (_ =? 0); [reflexivity|].
  rewrite (IH (S i) _ l ext). destruct (decode_base128_loop fd (S i) _ l) eqn:E; reflexivity.
Qed.

Lemma decode_base128_need_iff : forall fd i acc l,
  decode_base128_loop fd i acc l = BNeed <->
  (length l < fd)%nat /\ Forall (fun b => Z.land b 128 =? 0 = false) l.
Proof.
  induction fd as [|fd IH]; intros i acc l; cbn [decode_base128_loop].
  - split; [discriminate|lia].
  - destruct l as [|b l]; cbn [length]; [split; intros; [split; [lia|constructor]|reflexivity]|].
    destruct (Z.land b 128 =? 0) eqn:E.
    + split; [discriminate|]. intros [_ H]. inversion H; congruence.
    + rewrite IH. split.
      * intros [H1 H2]. split; [lia|constructor; assumption].
      * intros [H1 H2]. inversion H2; subst. split; [lia|assumption].
Qed.

Lemma decode_base128_bad_iff : forall fd i acc l,
  decode_base128_loop fd i acc l = BBad <->
  (fd <= length l)%nat /\ Forall (fun b => Z.land b 128 =? 0 = false) (firstn fd l).
Proof.
  induction fd as [|fd IH]; intros i acc l; cbn [decode_base128_loop firstn].
  - split; [intros _; split; [lia|constructor]|reflexivity].
  - destruct l as [|b l]; cbn [length]; [split; [discriminate|lia]|].
    destruct (Z.land b 128 =? 0) eqn:E.
    + split; [discriminate|]. intros [_ H]. inversion H; congruence.
    + rewrite IH. split.
      * intros [H1 H2]. split; [lia|constructor; assumption].
      * intros [H1 H2]. inversion H2; subst. split; [lia|assumption].
Qed.

(** ** Varints *)

Lemma land1 n : Z.land n 1 = n mod 2.
Proof. change 1 with (2 ^ 1 - 1) at 1. rewrite land_ones_mod by lia. reflexivity. Qed.

Lemma shift_accum v i k d : 0 <= v < 2 ^ Z.of_nat i -> 0 <= d < 2 ^ Z.of_nat k -> (i + k <= 64)%nat ->
  Z.lor v (Z.shiftl d (Z.of_nat i) mod 2 ^ 64) = v + d * 2 ^ Z.of_nat i /\
  0 <= v + d * 2 ^ Z.of_nat i < 2 ^ Z.of_nat (i + k).
Proof.
  intros Hv Hd Hi. rewrite Z.shiftl_mul_pow2 by lia.
  assert (E : 2 ^ Z.of_nat (i + k) = 2 ^ Z.of_nat i * 2 ^ Z.of_nat k) by (rewrite Nat2Z.inj_add, Z.pow_add_r by lia; reflexivity).
  pose proof (pow2_pos_nat i). pose proof (pow2_pos_nat k).
  assert (M : 2 ^ Z.of_nat (i + k) <= 2 ^ 64) by (apply Z.pow_le_mono_r; lia).
  rewrite (Z.mod_small (d * _)) by nia.
  rewrite lor_disjoint_add by lia. split; [reflexivity|]. rewrite E. nia.
Qed.

Lemma decode_varint_loop_dec : forall rem i acc n,
  0 <= acc < 2 ^ Z.of_nat i -> 0 <= n < 2 ^ Z.of_nat rem -> (i + rem <= 64)%nat ->
  dec 0 (decode_varint_loop rem i acc) (fields_bits (encode_varint n rem)) (acc + n * 2 ^ Z.of_nat i).
Proof.
  induction rem as [|rem IH]; intros i acc n Ha Hn Hi; cbn [decode_varint_loop encode_varint].
  - change (2 ^ Z.of_nat 0) with 1 in Hn. replace (acc + n * 2 ^ Z.of_nat i) with acc by nia. apply dec_ret.
  - destruct (Z.eqb_spec n 0) as [->|Hn0].
    + cbn [fields_bits app].
      replace (acc + 0 * 2 ^ Z.of_nat i) with acc by lia.
      destruct rem.
      * intros s r Hr. apply (dec_Need 0 1); [rewrite app_length, bits_of_length; cbn; lia| |exact Hr].
        apply dec_Read; [rewrite pow1; lia|]. cbn [decode_varint_loop].
        rewrite Z.shiftl_0_l, Z.mod_0_l, Z.lor_0_r by lia. apply dec_ret.
      * apply dec_Need; [rewrite app_length, bits_of_length; cbn; lia|].
        apply dec_Read; [rewrite pow1; lia|]. rewrite Z.eqb_refl. apply dec_ret.
    + rewrite land1. rewrite fields_bits_app. cbn [fields_bits].
      rewrite Z.shiftr_div_pow2 by lia. change (2 ^ 1) with 2.
      assert (Hm : 0 <= n mod 2 < 2) by (apply Z.mod_pos_bound; lia).
      destruct (shift_accum acc i 1 (n mod 2) Ha ltac:(rewrite pow1; lia) ltac:(lia)) as [E Hr].
      assert (D : dec 0 (Need 1 (Read 1 (fun b =>
          decode_varint_loop rem (S i) (Z.lor acc (Z.shiftl b (Z.of_nat i) mod 2 ^ 64)))))
          (bits_of 1 (n mod 2) ++ fields_bits (encode_varint (n / 2) rem)) (acc + n * 2 ^ Z.of_nat i)).
      { apply dec_Need; [rewrite app_length, bits_of_length; lia|].
        apply dec_Read; [rewrite pow1; lia|]. rewrite E.
        replace (acc + n * 2 ^ Z.of_nat i) with ((acc + n mod 2 * 2 ^ Z.of_nat i) + (n / 2) * 2 ^ Z.of_nat (S i)).
        - apply IH; [replace (S i) with (i + 1)%nat by lia; exact Hr| |lia].
          rewrite pow2_S in Hn. split; [apply Z.div_pos; lia|apply Z.div_lt_upper_bound; lia].
        - rewrite pow2_S. rewrite (Z.div_mod n 2) at 3 by lia. ring. }
      destruct rem.
      * exact D.
      * cbn [fields_bits]. rewrite <- app_assoc. cbn [app].
        apply dec_Need; [rewrite app_length, bits_of_length; lia|].
        apply dec_Read; [rewrite pow1; lia|].
        change (1 =? 0) with false. cbv iota. exact D.
Qed.

Lemma decode_varint_dec max_bits n : (max_bits <= 64)%nat -> 0 <= n < 2 ^ Z.of_nat max_bits ->
  dec 0 (decode_varint max_bits) (fields_bits (encode_varint n max_bits)) n.
Proof.
  intros Hm Hn. unfold decode_varint.
  pose proof (decode_varint_loop_dec max_bits 0 0 n ltac:(cbn; lia) Hn ltac:(lia)) as D.
  replace (0 + n * 2 ^ Z.of_nat 0) with n in D by (change (2 ^ Z.of_nat 0) with 1; lia). exact D.
Qed.

Lemma encode_varint_ok rem : forall n, 0 <= n -> fields_ok (encode_varint n rem).
Proof.
  induction rem as [|rem IH]; intros n Hn; cbn [encode_varint]; [constructor|].
  assert (H1 : 0 <= n mod 2 < 2) by (apply Z.mod_pos_bound; lia).
  destruct (n =? 0); [fok|].
  apply fields_ok_app. split; [destruct rem; fok|].
  apply fields_ok_cons. split; [rewrite land1, pow1; lia|]. apply IH. apply Z.shiftr_nonneg; lia.
Qed.

Lemma bok_decode_varint_loop rem : forall i v b, bok b (decode_varint_loop rem i v).
Proof.
  induction rem as [|rem IH]; intros i v b; cbn [decode_varint_loop]; [exact I|].
  destruct rem; [cbn [bok Read] in *; repeat split; try lia|].
  unfold Read. cbn [bok]. repeat split; try lia.
  intros. destruct (v0 =? 0); [exact I|]. cbn [bok]. repeat split; try lia. intros; apply IH.
Qed.

Lemma bok_decode_varint n b : bok b (decode_varint n).
Proof. apply bok_decode_varint_loop. Qed.

Lemma decode_limited_varint_loop_dec k : forall rem i acc n,
  (1 <= k)%nat -> 0 <= acc < 2 ^ Z.of_nat (i * k) -> 0 <= n < 2 ^ Z.of_nat (rem * k) -> ((i + rem) * k <= 64)%nat ->
  dec 0 (decode_limited_varint_loop k rem i acc) (fields_bits (encode_limited_varint n k rem)) (acc + n * 2 ^ Z.of_nat (i * k)).
Proof.
  induction rem as [|rem IH]; intros i acc n Hk Ha Hn Hi; cbn [decode_limited_varint_loop encode_limited_varint].
  - change (2 ^ Z.of_nat (0 * k)) with 1 in Hn. replace (acc + n * 2 ^ Z.of_nat (i * k)) with acc by nia. apply dec_ret.
  - cbn [fields_bits].
    apply dec_Need; [rewrite app_length, bits_of_length; lia|].
    apply dec_Read; [rewrite pow1; destruct (n =? 0); lia|].
    destruct (Z.eqb_spec n 0) as [->|Hn0].
    + change (0 =? 0) with true. cbv iota. cbn [fields_bits].
      replace (acc + 0 * 2 ^ Z.of_nat (i * k)) with acc by lia. apply dec_ret.
    + change (1 =? 0) with false. cbv iota. cbn [fields_bits].
      rewrite land_ones_mod by lia. rewrite Z.shiftr_div_pow2 by lia.
      pose proof (pow2_pos_nat k) as Pk.
      assert (Hm : 0 <= n mod 2 ^ Z.of_nat k < 2 ^ Z.of_nat k) by (apply Z.mod_pos_bound; lia).
      destruct (shift_accum acc (i * k) k (n mod 2 ^ Z.of_nat k) Ha Hm ltac:(lia)) as [E Hr].
      apply dec_Need; [rewrite app_length, bits_of_length; lia|].
      apply dec_Read; [exact Hm|]. rewrite E.
      assert (Ei : 2 ^ Z.of_nat (S i * k) = 2 ^ Z.of_nat k * 2 ^ Z.of_nat (i * k)).
      { replace (S i * k)%nat with (k + i * k)%nat by lia. rewrite Nat2Z.inj_add, Z.pow_add_r by lia. reflexivity. }
      assert (Er : 2 ^ Z.of_nat (S rem * k) = 2 ^ Z.of_nat k * 2 ^ Z.of_nat (rem * k)).
      { replace (S rem * k)%nat with (k + rem * k)%nat by lia. rewrite Nat2Z.inj_add, Z.pow_add_r by lia. reflexivity. }
      replace (acc + n * 2 ^ Z.of_nat (i * k)) with
        ((acc + n mod 2 ^ Z.of_nat k * 2 ^ Z.of_nat (i * k)) + (n / 2 ^ Z.of_nat k) * 2 ^ Z.of_nat (S i * k)).
      * apply IH; [exact Hk| | |lia].
        -- replace (S i * k)%nat with (i * k + k)%nat by lia. exact Hr.
        -- rewrite Er in Hn. split; [apply Z.div_pos; lia|apply Z.div_lt_upper_bound; lia].
      * rewrite Ei. rewrite (Z.div_mod n (2 ^ Z.of_nat k)) at 3 by lia. ring.
Qed.

Lemma decode_limited_varint_dec k m n : (1 <= k)%nat -> (m * k <= 64)%nat -> 0 <= n < 2 ^ Z.of_nat (m * k) ->
  dec 0 (decode_limited_varint k m) (fields_bits (encode_limited_varint n k m)) n.
Proof.
  intros Hk Hm Hn. unfold decode_limited_varint.
  pose proof (decode_limited_varint_loop_dec k m 0 0 n Hk ltac:(cbn; lia) Hn ltac:(lia)) as D.
  replace (0 + n * 2 ^ Z.of_nat (0 * k)) with n in D by (change (2 ^ Z.of_nat (0 * k)) with 1; lia). exact D.
Qed.

Lemma encode_limited_varint_ok k m : forall n, 0 <= n -> (k <= 56)%nat -> fields_ok (encode_limited_varint n k m).
Proof.
  induction m as [|m IH]; intros n Hn Hk; cbn [encode_limited_varint]; [constructor|].
  apply fields_ok_cons. split; [rewrite pow1; destruct (n =? 0); lia|].
  destruct (n =? 0); [constructor|]. apply fields_ok_cons. split.
  - split; [exact Hk|]. rewrite land_ones_mod by lia. apply Z.mod_pos_bound, pow2_pos_nat.
  - apply IH; [apply Z.shiftr_nonneg; lia|exact Hk].
Qed.

Lemma bok_decode_limited_varint_loop k rem : (k <= 24)%nat -> forall i v b, bok b (decode_limited_varint_loop k rem i v).
Proof.
  intros Hk. induction rem as [|rem IH]; intros i v b; cbn [decode_limited_varint_loop]; [exact I|].
  unfold Read. cbn [bok]. repeat split; try lia.
  intros. destruct (v0 =? 0); [exact I|]. cbn [bok]. repeat split; try lia. intros; apply IH.
Qed.

Lemma bok_decode_limited_varint k n b : (k <= 24)%nat -> bok b (decode_limited_varint k n).
Proof. intros; apply bok_decode_limited_varint_loop; assumption. Qed.

Lemma decode_var_len_uint8_dec n : 0 <= n < 256 ->
  dec 0 decode_var_len_uint8 (fields_bits (encode_var_len_uint8 n)) n.
Proof.
  intros Hn. unfold decode_var_len_uint8, encode_var_len_uint8.
  destruct (Z.eqb_spec n 0) as [->|H0]; cbn [fields_bits].
  - apply dec_Read; [rewrite pow1; lia|]. apply dec_ret.
  - apply dec_Read; [rewrite pow1; lia|]. change (1 =? 0) with false. cbv iota.
    pose proof (Z.log2_spec n ltac:(lia)) as [L1 L2].
    pose proof (Z.log2_nonneg n) as L0.
    assert (L3 : Z.log2 n < 8) by (apply Z.log2_lt_pow2; lia).
    apply dec_Read; [change (2 ^ Z.of_nat 3) with 8; lia|].
    rewrite Z.shiftl_mul_pow2, Z.mul_1_l by lia. rewrite <- Z.add_1_r, Z.pow_add_r in L2 by lia.
    destruct (Z.eqb_spec (Z.log2 n) 0) as [E|E].
    + rewrite E in *. change (2 ^ 0) with 1 in *. replace n with 1 by lia. cbn. apply dec_ret.
    + apply dec_Read; [rewrite Z2Nat.id by lia; lia|].
      replace (n - 2 ^ Z.log2 n + 2 ^ Z.log2 n) with n by lia. apply dec_ret.
Qed.

Lemma encode_var_len_uint8_ok n : 0 <= n < 256 -> fields_ok (encode_var_len_uint8 n).
Proof.
  intros Hn. unfold encode_var_len_uint8. destruct (Z.eqb_spec n 0); [fok|].
  pose proof (Z.log2_spec n ltac:(lia)) as [L1 L2]. pose proof (Z.log2_nonneg n) as L0.
  assert (L3 : Z.log2 n < 8) by (apply Z.log2_lt_pow2; lia).
  rewrite <- Z.add_1_r, Z.pow_add_r in L2 by lia.
  rewrite !fields_ok_cons. repeat split; try lia; try (cbn; lia); try apply fields_ok_nil.
  - rewrite Z.shiftl_mul_pow2, Z.mul_1_l by lia. lia.
  - rewrite Z.shiftl_mul_pow2, Z.mul_1_l, Z2Nat.id by lia. lia.
Qed.

Lemma bok_decode_var_len_uint8 : bok 11 decode_var_len_uint8.
Proof.
  unfold decode_var_len_uint8, Read. cbn [bok]. split; [lia|]. split; [lia|]. intros c Hc. split; [lia|].
  destruct (c =? 0); [exact I|]. cbn [bok]. split; [lia|]. split; [lia|]. intros nb Hnb. split; [lia|].
  change (2 ^ Z.of_nat 3) with 8 in Hnb.
  destruct (nb =? 0); [exact I|]. cbn [bok]. split; [lia|]. split; [lia|]. intros; split; [lia|exact I].
Qed.

(** Values stay within the documented ranges for any input. *)
Lemma decode_var_len_uint8_range strict l v r : arun strict decode_var_len_uint8 l = Some (v, r) -> 0 <= v < 256.
Proof.
  unfold decode_var_len_uint8, Read. cbn [arun].
  destruct (_ <=? _)%nat; [|discriminate]. destruct (peek 1 l =? 0); cbn [arun]; [intros E; injection E as <- _; lia|].
  set (l1 := skipn 1 l). clearbody l1.
  destruct (_ <=? _)%nat; [|discriminate].
  pose proof (peek_range 3 l1) as H3. change (2 ^ Z.of_nat 3) with 8 in H3.
  destruct (Z.eqb_spec (peek 3 l1) 0) as [E0|E0]; cbn [arun]; [intros E; injection E as <- _; lia|].
  destruct (_ <=? _)%nat; [|discriminate].
  match goal with |- context [peek ?n ?q] => pose proof (peek_range (Z.to_nat (peek 3 l1)) q) as Hp end.
  intros E; injection E as <- _.
  rewrite Z2Nat.id in Hp by lia. rewrite Z.shiftl_mul_pow2, Z.mul_1_l by lia.
  assert (2 ^ peek 3 l1 <= 2 ^ 7) by (apply Z.pow_le_mono_r; lia). change (2 ^ 7) with 128 in *.
  match goal with H : 0 <= ?x < _ |- 0 <= ?y + _ < 256 => change y with x end. lia.
Qed.
