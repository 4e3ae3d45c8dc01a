(** The encoder never refuses what the reader returns, within explicit limits: choices and sections. *)
From Verif Require Import Base CodesModel CodesProofs JpegModel CtxTables LehmerModel LehmerProofs EntropyModel HistModel HistProofs PropsHist BitModel BitProofs QuantModel QuantProofs PropsQuant InternalsModel InternalsProofs InternalsProofs2 MetaModel MetaProofs PropsMeta HeaderModel HeaderProofs PropsHeader
  CMapModel HSecModel PropsCMap CoefModel CoefProofs DCProofs PropsCoef ClusterModel PropsCluster Decoder DecoderProofs2 Encoder EncoderProofs2 EncoderProofs4 JpegSpec ReaderProofs6 EncodeTotal1.

(** * Context choices *)
Lemma every_fifth_length : forall l k, (length (every_fifth k l) <= length l)%nat.
Proof. induction l as [|b l IH]; intros k; cbn [every_fifth length]; [lia|]. destruct k as [|k]; cbn [length]; [specialize (IH 4%nat)|specialize (IH k)]; lia. Qed.
Lemma count_zeros_range l k : 0 <= count_zeros l k <= Z.of_nat (length l).
Proof.
  unfold count_zeros, block in *. generalize (fun b : list Z => nth k b 0 =? 0). intros f. assert (X : (length (filter f l) <= length l)%nat); [|lia].
  induction l as [|b l IH]; cbn [filter length]; [lia|]. destruct (f b); cbn [length]; lia.
Qed.

Lemma sumZ_map_bound {A} (f : A -> Z) m l : (forall x, 0 <= f x <= m) -> 0 <= sumZ (map f l) <= Z.of_nat (length l) * m.
Proof.
  intros H. induction l as [|x l IH]; [unfold sumZ; cbn; lia|]. cbn [map length]. change (sumZ (f x :: map f l)) with (f x + sumZ (map f l)). specialize (H x). lia.
Qed.

Lemma sample_nonzeros_range l : 0 <= sample_nonzeros l <= 320 * Z.of_nat (length l).
Proof.
  unfold sample_nonzeros. destruct (_ <? _)%nat; [lia|]. pose proof (every_fifth_length l 0).
  pose proof (sumZ_map_bound (count_zeros (every_fifth 0 l)) (Z.of_nat (length (every_fifth 0 l))) (seq 0 64) (count_zeros_range _)) as X. rewrite seq_length in X. lia.
Qed.

Lemma select_context_bits_some n : 1 <= n < 2 ^ 32 -> exists b, select_context_bits n = Some b.
Proof.
  intros H. unfold select_context_bits. cbv zeta. rewrite Z.mod_small by lia. destruct (Z.leb_spec n 0) as [L|L]; [lia|].
  assert (B : Z.log2 n < 32) by (apply Z.log2_lt_pow2; lia). pose proof (Z.log2_nonneg n).
  destruct (nth_error kContextBits (Z.to_nat (Z.log2 n))) as [b|] eqn:E; [eauto|]. apply nth_error_None in E. change (length kContextBits) with 33%nat in E. lia.
Qed.

Lemma enc_metas_some j : forall cs off, Forall (fun c => 0 <= c_quant c < Z.of_nat (length (j_quant j))) cs ->
  Forall (fun c => c_wb c = j_mcu_cols j * c_h c /\ c_hb c = j_mcu_rows j * c_v c /\ 1 <= c_wb c /\ 1 <= c_hb c /\ c_wb c * c_hb c <= 2 ^ 21 /\ Z.of_nat (length (c_coeffs c)) = c_wb c * c_hb c) cs ->
  exists ms, enc_metas j off cs = Some ms.
Proof.
  induction cs as [|c cs IH]; intros off F G; cbn [enc_metas]; [eauto|].
  pose proof (Forall_inv F) as F1. cbv beta in F1. destruct (Forall_inv G) as (G1 & G2 & G3 & G4 & G5 & G6).
  destruct (Z.ltb_spec (c_quant c) 0) as [L|L]; [lia|].
  destruct (nth_error (j_quant j) (Z.to_nat (c_quant c))) as [q|] eqn:E; [|apply nth_error_None in E; lia].
  unfold obind. cbv zeta. rewrite <- G1, <- G2.
  assert (N : (Z.to_nat (c_wb c) * Z.to_nat (c_hb c))%nat = length (c_coeffs c)) by (rewrite <- Z2Nat.inj_mul by lia; lia).
  rewrite N, Nat.ltb_irrefl, firstn_all.
  pose proof (sample_nonzeros_range (c_coeffs c)) as S. change (2 ^ 21) with 2097152 in G5. unfold block in S.
  destruct (select_context_bits_some (sample_nonzeros (c_coeffs c) + 1)) as [b Eb]; [change (2 ^ 32) with 4294967296; lia|]. rewrite Eb.
  destruct (IH (off + Z.of_nat (scheme_size b)) (Forall_inv_tail F) (Forall_inv_tail G)) as [t Et]. rewrite Et. eauto.
Qed.

(** * Sections *)
Lemma encode_section_some tag k payload : Z.of_nat (length payload) < 2 ^ (7 * Z.of_nat k) -> exists s, encode_section tag k payload = Some s.
Proof.
  intros H. unfold encode_section. rewrite Z.shiftr_div_pow2 by lia. rewrite Z.div_small by lia. eexists. reflexivity.
Qed.

Lemma base128_size_fits v : 0 <= v < 2 ^ 63 -> v < 2 ^ (7 * Z.of_nat (base128_size v)).
Proof.
  intros H. apply (base128_size_ok 10 v); [|lia]. split; [lia|]. eapply Z.lt_trans; [apply H|]. apply Z.pow_lt_mono_r; lia.
Qed.

Lemma section_some tag v payload : Z.of_nat (length payload) <= v < 2 ^ 63 -> exists s, encode_section tag (base128_size v) payload = Some s /\ Z.of_nat (length s) <= 10 + Z.of_nat (length payload).
Proof.
  intros H. destruct (encode_section_some tag (base128_size v) payload) as [s E]; [pose proof (base128_size_fits v ltac:(lia)); lia|].
  exists s. split; [exact E|]. apply encode_section_length in E. pose proof (base128_size_range v ltac:(lia)). lia.
Qed.

(** * Quantization tables *)
Lemma flen_app a b : fields_len (a ++ b) = (fields_len a + fields_len b)%nat.
Proof. induction a as [|[n v] a IH]; cbn [app fields_len]; [reflexivity|]. rewrite IH. lia. Qed.
Lemma varint_length : forall rem n, (fields_len (encode_varint n rem) <= 2 * rem)%nat.
Proof.
  induction rem as [|r IH]; intros n; cbn [encode_varint]; [cbn [fields_len]; lia|]. destruct (n =? 0); [cbn [fields_len]; lia|].
  rewrite flen_app. specialize (IH (Z.shiftr n 1)). destruct r; cbn [fields_len] in *; lia.
Qed.

Lemma quant_diffs_some M values pred : M <= 65283 -> Forall (fun x => 1 <= x <= 255) pred -> Forall (fun x => 1 <= x <= M) values ->
  length pred = 64%nat -> length values = 64%nat ->
  forall order last, (forall k, In k order -> 0 <= k < 64) -> -254 <= last <= Z.max 0 (M - 1) -> encode_quant_diffs order values pred last <> None.
Proof.
  intros HM Hp Hv Lp Lv. induction order as [|j r IH]; intros last Ho Hl; cbn [encode_quant_diffs]; [discriminate|].
  assert (Hj : 0 <= j < 64) by (apply Ho; left; reflexivity).
  assert (1 <= nat_at values j <= M) by (rewrite Forall_forall in Hv; apply Hv; unfold nat_at; apply nth_In; lia).
  assert (1 <= nat_at pred j <= 255) by (rewrite Forall_forall in Hp; apply Hp; unfold nat_at; apply nth_In; lia).
  specialize (IH (nat_at values j - nat_at pred j) ltac:(intros; apply Ho; right; assumption) ltac:(lia)).
  destruct (encode_quant_diffs r _ _ _); [|congruence]. cbv zeta.
  destruct (_ =? 0); cbn [obind]; [discriminate|]. destruct (Z.ltb_spec 65535 (Z.abs (nat_at values j - nat_at pred j - last) - 1)); [lia|].
  discriminate.
Qed.

(** Every set of 1..4 tables with values up to 65283 is accepted. *)
Lemma quant_tables_some tables idx : (1 <= length tables <= 4)%nat -> Forall (fun v => length v = 64%nat /\ Forall (fun x => 1 <= x <= 65283) v) tables ->
  exists fs, encode_quant_tables tables idx = Some fs.
Proof.
  intros HL HF. unfold encode_quant_tables.
  assert (E : forall i, encode_quant_list i tables <> None).
  { clear HL. induction HF as [|v r [Lv Hv] HF IH]; intros i; cbn [encode_quant_list]; [discriminate|].
    assert (T : encode_quant_table i v <> None).
    { unfold encode_quant_table.
      assert (Hz : forallb (fun j => negb (nat_at v j =? 0)) kNaturalOrder = true).
      { apply forallb_forall. intros j Hj. apply natural_in_range in Hj. rewrite Forall_forall in Hv.
        specialize (Hv (nat_at v j) ltac:(unfold nat_at; apply nth_In; lia)). lia. }
      rewrite Hz. destruct (stock_match _ _ _); [discriminate|].
      destruct (fill_quant_range (Nat.min i 1) (Z.of_nat (find_best_matrix (Nat.min i 1) v)) ltac:(lia)) as [R1 R2].
      pose proof (quant_diffs_some 65283 v _ ltac:(lia) R1 Hv R2 Lv kNaturalOrder 0 natural_in_range ltac:(lia)) as T.
      destruct (encode_quant_diffs _ _ _ _); [discriminate|congruence]. }
    destruct (encode_quant_table i v); [|congruence]. specialize (IH (S i)). cbn [obind].
    destruct (encode_quant_list (S i) r); [discriminate|congruence]. }
  specialize (E 0%nat). destruct tables as [|t0 ts]; [cbn in HL; lia|].
  destruct (Nat.ltb_spec 4 (length (t0 :: ts))); [lia|].
  destruct (encode_quant_list 0 (t0 :: ts)); [eexists; reflexivity|congruence].
Qed.

Lemma some_eq {A} (a b : A) : Some a = Some b -> a = b.
Proof. congruence. Qed.

Lemma quant_diffs_length values pred : forall order last t, encode_quant_diffs order values pred last = Some t -> (fields_len t <= 34 * length order)%nat.
Proof.
  induction order as [|j r IH]; intros last t E; cbn [encode_quant_diffs] in E; [injection E as <-; cbn [fields_len]; lia|]. cbv zeta in E. unfold obind in E.
  destruct (encode_quant_diffs r values pred _) as [t1|] eqn:E1; [|destruct (_ =? 0); [discriminate|destruct (_ <? _); discriminate]]. specialize (IH _ _ E1). cbn [length].
  destruct (_ =? 0); [injection E as <-; cbn [fields_len]; lia|]. destruct (_ <? _); [discriminate|]. apply some_eq in E. subst t. cbn [fields_len].
  rewrite flen_app. pose proof (varint_length 16 (Z.abs (nat_at values j - nat_at pred j - last) - 1)). lia.
Qed.

Lemma quant_table_length i v a : encode_quant_table i v = Some a -> (fields_len a <= 40 * 55)%nat.
Proof.
  unfold encode_quant_table. destruct (forallb _ kNaturalOrder); [|discriminate 1]. cbv zeta. destruct (stock_match _ _ _).
  - intros E. apply some_eq in E. subst a. cbn [fields_len]. lia.
  - unfold obind. generalize (fill_quant (Nat.min i 1) (Z.of_nat (find_best_matrix (Nat.min i 1) v))). intros pred. generalize (Z.of_nat (find_best_matrix (Nat.min i 1) v)). intros q.
    destruct (encode_quant_diffs kNaturalOrder v pred 0) as [x|] eqn:Ex; [|discriminate 1]. intros E. apply some_eq in E. subst a.
    apply quant_diffs_length in Ex. change (length kNaturalOrder) with 64%nat in Ex. cbn [fields_len]. lia.
Qed.

Lemma quant_list_length : forall l i t, encode_quant_list i l = Some t -> (fields_len t <= 40 * 55 * length l)%nat.
Proof.
  induction l as [|v l IH]; intros i t E; cbn [encode_quant_list] in E; [apply some_eq in E; subst t; cbn [fields_len]; lia|].
  unfold obind in E. destruct (encode_quant_table i v) as [a|] eqn:Ea; [|discriminate E]. destruct (encode_quant_list (S i) l) as [b|] eqn:Eb; [|discriminate E]. apply some_eq in E. subst t.
  rewrite flen_app. specialize (IH _ _ Eb). apply quant_table_length in Ea. cbn [length]. lia.
Qed.

Lemma quant_section_small tables idx fs : encode_quant_tables tables idx = Some fs -> (length idx <= 4)%nat -> Z.of_nat (length (pack (fields_bits fs))) < 2 ^ (7 * Z.of_nat 2).
Proof.
  unfold encode_quant_tables. intros E LI. destruct tables as [|t0 ts]; [discriminate E|]. destruct (Nat.ltb_spec 4 (length (t0 :: ts))) as [L|L]; [discriminate E|].
  destruct (encode_quant_list 0 (t0 :: ts)) as [t|] eqn:Et; [|discriminate E]. cbn [obind] in E. apply some_eq in E. subst fs.
  apply quant_list_length in Et. rewrite pack_length, fields_bits_length. change (2 ^ (7 * Z.of_nat 2)) with 16384. cbn [fields_len]. rewrite flen_app.
  assert (I : fields_len (map (fun x : Z => (2%nat, x)) idx) = (2 * length idx)%nat) by (clear; induction idx as [|x idx IH]; cbn [map fields_len length]; lia).
  rewrite I. rewrite Nat2Z.inj_div. apply Z.div_lt_upper_bound; lia.
Qed.
