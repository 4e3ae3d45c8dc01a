(** The length of the JPEG internals is at most the estimate, if the Huffman tables are not too long. *)
From Verif Require Import Base CodesModel BitModel BitProofs HistProofs LehmerModel Tables JpegModel InternalsModel InternalsProofs CoefProofs JBitModel JSegModel JFileModel Encoder JpegSpec
  EncodeSpec.

Lemma some_eq {A} (x y : A) : Some x = Some y -> x = y.
Proof. congruence. Qed.

Definition flen (l : list (nat * Z)) : Z := Z.of_nat (fields_len l).

Lemma flen_nil : flen [] = 0. Proof. reflexivity. Qed.
Lemma flen_cons n v l : flen ((n, v) :: l) = Z.of_nat n + flen l.
Proof. unfold flen. cbn [fields_len]. lia. Qed.
Lemma flen_app a b : flen (a ++ b) = flen a + flen b.
Proof. induction a as [|[n v] a IH]; [reflexivity|]. cbn [app]. rewrite !flen_cons, IH. lia. Qed.
Lemma flen_nonneg l : 0 <= flen l.
Proof. unfold flen. lia. Qed.
Lemma flen_map {A} (n : nat) (f : A -> Z) l : flen (map (fun y => (n, f y)) l) = Z.of_nat n * Z.of_nat (length l).
Proof. induction l as [|x l IH]; cbn [map length]; [rewrite flen_nil; lia|]. rewrite flen_cons, IH. lia. Qed.

Lemma sumZ_cons x l : sumZ (x :: l) = x + sumZ l.
Proof. reflexivity. Qed.

Ltac flens := repeat first [rewrite flen_app | rewrite flen_cons | rewrite flen_nil].

Lemma encode_varint_length : forall rem n, flen (encode_varint n rem) <= Z.max 0 (2 * Z.of_nat rem - 1).
Proof.
  induction rem as [|r IH]; intros n; cbn [encode_varint]; [rewrite flen_nil; lia|]. destruct (n =? 0); [flens; lia|].
  specialize (IH (Z.shiftr n 1)). destruct r; flens; lia.
Qed.

(** A value of k bits takes k pairs and a terminator. *)
Lemma encode_varint_short : forall rem k n, 0 <= n < 2 ^ Z.of_nat k -> flen (encode_varint n rem) <= 2 * Z.of_nat k + 1.
Proof.
  induction rem as [|r IH]; intros k n H; cbn [encode_varint]; [rewrite flen_nil; lia|]. destruct (Z.eqb_spec n 0) as [E|E]; [flens; lia|].
  destruct k as [|k]; [change (2 ^ Z.of_nat 0) with 1 in H; lia|]. specialize (IH k (Z.shiftr n 1)). rewrite Z.shiftr_div_pow2 in * by lia. change (2 ^ 1) with 2 in *.
  replace (Z.of_nat (S k)) with (1 + Z.of_nat k) in H by lia. rewrite Z.pow_add_r in H by lia. change (2 ^ 1) with 2 in H.
  specialize (IH ltac:(split; [apply Z.div_pos; lia|apply Z.div_lt_upper_bound; lia])). destruct r; flens; lia.
Qed.

Lemma encode_limited_length nb : forall m v, flen (encode_limited_varint v nb m) <= Z.of_nat m * (1 + Z.of_nat nb).
Proof.
  induction m as [|m IH]; intros v; cbn [encode_limited_varint]; [rewrite flen_nil; lia|]. rewrite flen_cons. destruct (v =? 0); [rewrite flen_nil; lia|].
  rewrite flen_cons. specialize (IH (Z.shiftr v (Z.of_nat nb))). lia.
Qed.

(** * Huffman codes *)

Lemma encode_counts_length mx : mx <= 256 -> forall cs i total space fs t, 0 <= total -> Forall (fun c => 0 <= c) cs ->
  encode_counts i cs total space mx = Some (fs, t) -> flen fs <= 9 * Z.of_nat (length cs) /\ t <= total + sumZ cs.
Proof.
  intros HM. induction cs as [|c cs IH]; intros i total space fs t T P E; cbn [encode_counts] in E.
  - apply some_eq in E. injection E as <- <-. rewrite flen_nil. unfold sumZ. cbn. lia.
  - inversion P as [|? ? P0 P1]; subst. cbv zeta in E. match type of E with (if ?b then _ else _) = _ => destruct b; [discriminate E|] end. rewrite sumZ_cons. cbn [length].
    match type of E with (if ?b then _ else _) = _ => destruct b eqn:G end.
    + apply obind_some in E. destruct E as ([fs' t'] & E1 & E). cbn [fst snd] in E. apply some_eq in E. injection E as <- <-.
      apply IH in E1; [|lia|exact P1]. destruct E1 as [A B]. rewrite flen_cons.
      set (lim := Z.min (mx - total) (Z.shiftr space (16 - Z.of_nat i))) in *. assert (LL : lim < 2 ^ 9) by (change (2 ^ 9) with 512; lia).
      apply Z.ltb_lt in G. assert (Z.log2 lim < 9) by (apply Z.log2_lt_pow2; lia). lia.
    + destruct (IH _ _ _ _ _ T P1 E) as [A B]. cbv beta in P0. lia.
Qed.

Lemma find_erase_length v : forall l i r, find_erase v l = Some (i, r) -> (length r <= length l)%nat.
Proof.
  induction l as [|x l IH]; intros i r E; cbn [find_erase] in E; [discriminate E|]. destruct (x =? v); [injection E as _ <-; cbn [length]; lia|].
  destruct (find_erase v l) as [[i' r']|] eqn:F; [|discriminate E]. injection E as _ <-. specialize (IH _ _ eq_refl). cbn [length]. lia.
Qed.

Lemma encode_perm_length : forall vs values fs, (length values <= 256)%nat -> encode_perm vs values = Some fs -> flen fs <= 12 * Z.of_nat (length vs).
Proof.
  induction vs as [|v vs IH]; intros values fs L E; cbn [encode_perm] in E; [apply some_eq in E; subst; rewrite flen_nil; cbn; lia|].
  unfold pc_remove_value in E. destruct (find_erase v values) as [[i r]|] eqn:F; [|discriminate E]. apply obind_some in E. destruct E as (x & E1 & E). apply some_eq in E. subst fs.
  pose proof (find_erase_length _ _ _ _ F) as L1. specialize (IH r x ltac:(lia) E1). rewrite flen_app. cbn [length].
  pose proof (encode_limited_length 2 (Nat.div2 (pc_num_bits values + 1)) (Z.of_nat i)) as B.
  assert (K : (Nat.div2 (pc_num_bits values + 1) <= 4)%nat).
  { assert (Q : (pc_num_bits values <= 8)%nat).
    { unfold pc_num_bits. cbv zeta. destruct (Z.leb_spec (Z.of_nat (length values)) 1); [lia|]. assert (Z.log2 (Z.of_nat (length values) - 1) < 8) by (apply Z.log2_lt_pow2; [lia|change (2 ^ 8) with 256; lia]). lia. }
    rewrite Nat.div2_div. assert ((pc_num_bits values + 1) / 2 < 5)%nat by (apply Nat.div_lt_upper_bound; lia). lia. }
  lia.
Qed.

Lemma huff_max_len_le counts : forall n, (huff_max_len n counts <= n)%nat.
Proof. induction n as [|n IH]; cbn [huff_max_len]; [lia|]. destruct (nth (S n) counts 0 =? 0); lia. Qed.
Lemma huff_max_len_nz counts : forall n, huff_max_len n counts <> O -> nth (huff_max_len n counts) counts 0 <> 0.
Proof. induction n as [|n IH]; cbn [huff_max_len]; [lia|]. destruct (Z.eqb_spec (nth (S n) counts 0) 0); auto. Qed.

Lemma sumZ_firstn_le : forall k l, Forall (fun c => 0 <= c) l -> sumZ (firstn k l) <= sumZ l.
Proof.
  induction k as [|k IH]; intros l P; cbn [firstn].
  - clear -P. induction P; [lia|]. rewrite sumZ_cons. change (sumZ []) with 0 in *. lia.
  - destruct l; [lia|]. inversion P; subst. rewrite !sumZ_cons. specialize (IH l ltac:(assumption)). lia.
Qed.
Lemma sumZ_upd : forall l k v, (k < length l)%nat -> sumZ (upd l k v) = sumZ l - nth k l 0 + v.
Proof.
  induction l as [|x l IH]; intros k v L; cbn [length] in L; [lia|]. destruct k as [|k]; cbn [upd nth]; rewrite !sumZ_cons; [lia|]. rewrite IH by lia. lia.
Qed.
Lemma Forall_upd_nonneg l k v : Forall (fun c => 0 <= c) l -> 0 <= v -> Forall (fun c => 0 <= c) (upd l k v).
Proof.
  intros P V. revert k. induction P as [|x l H P IH]; intros [|k]; cbn [upd]; constructor; auto.
Qed.
Lemma upd_len {A} (l : list A) k v : length (upd l k v) = length l.
Proof. revert k. induction l as [|x l IH]; intros [|k]; cbn [upd length]; auto. Qed.

Lemma encode_huff_length h known fs : Forall (fun c => 0 <= c) (hc_counts h) -> length (hc_counts h) = 17%nat -> sumZ (hc_counts h) <= 169 ->
  encode_huff h known = Some fs -> flen fs <= 2175.
Proof.
  intros P L17 S E. unfold encode_huff in E. cbv zeta in E. match type of E with (if ?b then _ else _) = _ => destruct b; [discriminate E|] end.
  assert (HD : forall x, flen (([(2%nat, Z.land (hc_slot h) 15); (1%nat, Z.shiftr (hc_slot h) 4)] ++ (if known then [] else [(1%nat, b2z (hc_last h))])) ++ x) <= 4 + flen x) by (intros x; destruct known; cbn [app]; flens; lia).
  destruct (find_stock _ _ _) as [idx|].
  - apply some_eq in E. subst fs. eapply Z.le_trans; [apply HD|]. flens. lia.
  - match type of E with (if ?b then _ else _) = _ => destruct b eqn:G; [discriminate E|] end. apply orb_false_iff in G. destruct G as [G1 G2].
    apply Nat.eqb_neq in G2. apply negb_false_iff, Z.eqb_eq in G1.
    pose proof (huff_max_len_le (hc_counts h) 16) as ML. pose proof (huff_max_len_nz (hc_counts h) 16 G2) as NZ. set (ml := huff_max_len 16 (hc_counts h)) in *.
    assert (C0 : exists cl, hc_counts h = 0 :: cl) by (destruct (hc_counts h) as [|x cl]; [discriminate L17|]; cbn [nth] in G1; subst x; eauto). destruct C0 as [cl C0]. rewrite C0 in *. cbn [skipn length] in *.
    inversion P as [|? ? _ P1]; subst. rewrite sumZ_cons in S.
    assert (LF : length (firstn ml cl) = ml) by (rewrite firstn_length; lia).
    assert (NN : nth ml (0 :: cl) 0 = nth (ml - 1) (firstn ml cl) 0).
    { replace ml with (Datatypes.S (ml - 1)) at 1 by lia. cbn [nth]. rewrite HistProofs.nth_firstn by lia. reflexivity. }
    assert (PF : Forall (fun c => 0 <= c) (firstn ml cl)) by (rewrite Forall_forall in *; intros z I; apply P1; rewrite <- (firstn_skipn ml cl); apply in_or_app; left; exact I).
    assert (PN : 0 <= nth (ml - 1) (firstn ml cl) 0) by (rewrite Forall_forall in PF; apply PF; apply nth_In; lia).
    apply obind_some in E. destruct E as ([cf total] & E1 & E). match type of E with (if ?b then _ else _) = _ => destruct b; [discriminate E|] end.
    apply obind_some in E. destruct E as (p & E2 & E). apply some_eq in E. subst fs.
    apply encode_counts_length in E1; [|unfold max_values; destruct (_ =? 0); lia|lia|apply Forall_upd_nonneg; [exact PF|lia]]. destruct E1 as [A B].
    rewrite upd_len, LF in A. rewrite sumZ_upd in B by lia. pose proof (sumZ_firstn_le ml cl P1) as SF.
    apply encode_perm_length in E2; [|apply default_values_length]. pose proof (firstn_le_length (Z.to_nat total) (hc_values h)) as FL.
    assert (FL2 : (length (firstn (Z.to_nat total) (hc_values h)) <= Z.to_nat total)%nat) by (rewrite firstn_length; lia).
    eapply Z.le_trans; [apply HD|]. flens. lia.
Qed.

Lemma encode_huffs_length : forall l fs, Forall (fun h => Forall (fun c => 0 <= c) (hc_counts h) /\ length (hc_counts h) = 17%nat /\ sumZ (hc_counts h) <= 169) l ->
  encode_huffs l = Some fs -> flen fs <= 2176 * Z.of_nat (length l).
Proof.
  induction l as [|h l IH]; intros fs F E; cbn [encode_huffs] in E; [apply some_eq in E; subst; rewrite flen_nil; cbn; lia|].
  inversion F as [|? ? (F1 & F2 & F3) F4]; subst. cbv zeta in E. apply obind_some in E. destruct E as (a & E1 & E). apply obind_some in E. destruct E as (b & E2 & E). apply some_eq in E. subst fs.
  apply encode_huff_length in E1; auto. specialize (IH b F4 E2). rewrite flen_cons, flen_app. cbn [length]. lia.
Qed.

(** * Scans *)

Lemma encode_resets_length : forall l last, flen (encode_resets l last) <= 56 * Z.of_nat (length l) + 1.
Proof.
  induction l as [|b l IH]; intros last; cbn [encode_resets length]; flens; [lia|]. specialize (IH b). pose proof (encode_varint_length 28 (b - last - 1)). lia.
Qed.
Lemma encode_run_same : forall n b, flen (encode_run n b b) = 2 * Z.of_nat n.
Proof. induction n as [|n IH]; intros b; cbn [encode_run]; flens; [lia|]. rewrite IH, Z.sub_diag. change (encode_varint 0 28) with [(1%nat, 0)]. flens. lia. Qed.
Lemma encode_runs_length : forall l last lo, 0 <= last -> lo <= last -> last <= lo + 1 -> runs_ok lo l -> Forall (fun e => fst e < 2 ^ 23 /\ snd e <= 4) l -> flen (encode_runs l last) <= 56 * Z.of_nat (length l) + 1.
Proof.
  induction l as [|[b n] l IH]; intros last lo L0 L1 L2 R F; cbn [encode_runs length]; [flens; lia|]. cbn [runs_ok] in R. destruct R as (R1 & _ & R3 & R4). inversion F as [|? ? [F1 F2] F3]; subst. cbn [fst snd] in *.
  assert (G : 0 <? n = true) by (apply Z.ltb_lt; lia). rewrite G. specialize (IH b b ltac:(lia) ltac:(lia) ltac:(lia) R4 F3). rewrite flen_app.
  assert (K : exists m, Z.to_nat n = S m /\ (m <= 3)%nat) by (exists (Z.to_nat n - 1)%nat; lia). destruct K as (m & K & K1). rewrite K. cbn [encode_run]. rewrite flen_cons, flen_app, encode_run_same.
  pose proof (encode_varint_short 28 23 (b - last) ltac:(change (2 ^ Z.of_nat 23) with (2 ^ 23); lia)). lia.
Qed.
Lemma encode_scan_length s : scan_ok s -> Forall (fun e => fst e < 2 ^ 23 /\ snd e <= 4) (si_zero_runs s) ->
  flen (encode_scan s) <= 56 + 8 * (7 * Z.of_nat (length (si_resets s)) + 7 * Z.of_nat (length (si_zero_runs s))).
Proof.
  intros (_ & _ & _ & _ & S5 & _ & _ & S8) F. unfold encode_scan. cbn [app]. flens. pose proof (encode_resets_length (si_resets s) (-1)). pose proof (encode_runs_length (si_zero_runs s) 0 (-1) ltac:(lia) ltac:(lia) ltac:(lia) S8 F).
  assert (C : forall l, flen (flat_map (fun c => [(2%nat, cs_comp c); (2%nat, cs_dc c); (2%nat, cs_ac c)]) l) = 6 * Z.of_nat (length l)).
  { clear. induction l as [|c l IH]; cbn [flat_map length]; [rewrite flen_nil; lia|]. rewrite flen_app, IH. flens. lia. }
  rewrite C. lia.
Qed.
Lemma encode_scans_length : forall l, Forall scan_ok l -> Forall (fun s => Forall (fun e => fst e < 2 ^ 23 /\ snd e <= 4) (si_zero_runs s)) l ->
  flen (flat_map encode_scan l) <= 56 * Z.of_nat (length l) + 8 * sumZ (map (fun s => 7 * Z.of_nat (length (si_resets s)) + 7 * Z.of_nat (length (si_zero_runs s))) l).
Proof.
  induction l as [|s l IH]; intros A B; cbn [flat_map map length]; [rewrite flen_nil; unfold sumZ; cbn; lia|]. inversion A; inversion B; subst. rewrite flen_app, sumZ_cons. specialize (IH ltac:(assumption) ltac:(assumption)).
  pose proof (encode_scan_length s ltac:(assumption) ltac:(assumption)). lia.
Qed.

(** * The rest *)

Lemma encode_quant_heads_length : forall l fs, encode_quant_heads l = Some fs -> flen fs <= 7 * Z.of_nat (length l).
Proof.
  induction l as [|[[ix last] prec] l IH]; intros fs E; cbn [encode_quant_heads] in E; [apply some_eq in E; subst; rewrite flen_nil; cbn; lia|]. destruct l as [|q l].
  - destruct last; [|discriminate E]. apply some_eq in E. subst. flens. cbn [length]. lia.
  - apply obind_some in E. destruct E as (b & E1 & E). apply some_eq in E. subst. specialize (IH b E1). flens. cbn [length] in *. lia.
Qed.

Lemma encode_base128_length : forall f k v, (k < f)%nat -> 0 <= v < 2 ^ (7 * (Z.of_nat k + 1)) -> (length (encode_base128_loop f v) <= S k)%nat.
Proof.
  induction f as [|f IH]; intros k v K V; [lia|]. cbn [encode_base128_loop length]. destruct (Z.ltb_spec 0 (Z.shiftr v 7)) as [G|G]; [|cbn [length]; lia].
  rewrite Z.shiftr_div_pow2 in * by lia. change (2 ^ 7) with 128 in *. destruct k as [|k]; [change (2 ^ (7 * (Z.of_nat 0 + 1))) with 128 in V; rewrite Z.div_small in G by lia; lia|].
  assert (E : 2 ^ (7 * (Z.of_nat (S k) + 1)) = 128 * 2 ^ (7 * (Z.of_nat k + 1))) by (change 128 with (2 ^ 7); rewrite <- Z.pow_add_r by lia; f_equal; lia).
  rewrite E in V. specialize (IH k (v / 128) ltac:(lia) ltac:(split; [apply Z.div_pos; lia|apply Z.div_lt_upper_bound; lia])). lia.
Qed.
Lemma encode_inter_length : forall l, Forall (fun s => Z.of_nat (length s) < 2 ^ 35) l -> Z.of_nat (length (encode_inter l)) <= sumZ (map (fun s => 5 + Z.of_nat (length s)) l).
Proof.
  induction l as [|s l IH]; intros F; [unfold sumZ; cbn; lia|]. inversion F as [|? ? F1 F2]; subst. unfold encode_inter in *. cbn [flat_map map]. rewrite !app_length, sumZ_cons. specialize (IH F2).
  pose proof (encode_base128_length 10 4 (Z.of_nat (length s)) ltac:(lia)) as B. change (2 ^ (7 * (Z.of_nat 4 + 1))) with (2 ^ 35) in B. specialize (B ltac:(lia)). unfold encode_base128 in *. lia.
Qed.

Lemma aux_length j aux : (1 <= length (j_quant j) <= 4)%nat -> (length (j_comps j) <= 4)%nat ->
  Forall (fun h => Forall (fun c => 0 <= c) (hc_counts h) /\ length (hc_counts h) = 17%nat /\ sumZ (hc_counts h) <= 169) (j_huff j) ->
  Forall scan_ok (j_scans j) -> Forall (fun s => Forall (fun e => fst e < 2 ^ 23 /\ snd e <= 4) (si_zero_runs s)) (j_scans j) ->
  Forall (fun s => Z.of_nat (length s) < 2 ^ 35) (j_inter j) ->
  encode_aux (j_width j) (j_height j) (internals_of j) (j_inter j) = Some aux -> Z.of_nat (length aux) <= aux_estimate j.
Proof.
  intros Q C H S1 S2 I E. unfold encode_aux in E. apply obind_some in E. destruct E as (fs & E & EA). apply some_eq in EA. subst aux.
  unfold encode_internals in E. cbv zeta in E. unfold internals_of in E. cbn [in_markers in_restart in_huff in_scans in_quant in_ids in_zero_pad in_padding] in E.
  match type of E with (if ?b then _ else _) = _ => destruct b; [discriminate E|] end. apply obind_some in E. destruct E as (hs & E1 & E).
  match type of E with (if ?b then _ else _) = _ => destruct b; [discriminate E|] end. apply obind_some in E. destruct E as (qs & E2 & E).
  match type of E with (if ?b then _ else _) = _ => destruct b; [discriminate E|] end. apply some_eq in E. subst fs.
  apply encode_huffs_length in E1; [|exact H]. apply encode_quant_heads_length in E2. rewrite map_length in E2.
  pose proof (encode_scans_length _ S1 S2) as E3. pose proof (encode_inter_length _ I) as E4.
  rewrite app_length, pack_length, fields_bits_length. unfold aux_estimate.
  match goal with |- context [fields_len ?l] => set (fl := l) end.
  set (pad := if j_zero_pad j then j_padding j else []) in *.
  assert (EP : (if j_zero_pad j then Z.of_nat (length (j_padding j)) else 0) = Z.of_nat (length pad)) by (unfold pad; destruct (j_zero_pad j); reflexivity). rewrite EP.
  assert (FL : flen fl <= 6 * Z.of_nat (length (j_markers j)) + 16 + 2176 * Z.of_nat (length (j_huff j)) + 56 * Z.of_nat (length (j_scans j))
     + 8 * sumZ (map (fun s => 7 * Z.of_nat (length (si_resets s)) + 7 * Z.of_nat (length (si_zero_runs s))) (j_scans j)) + 100 + Z.of_nat (length pad)).
  { unfold fl. flens. rewrite flen_map. rewrite (flen_map 1 (fun y => y)). pose proof (encode_limited_length 8 4 (Z.of_nat (length pad))) as LV.
    assert (X1 : flen (if (0 <? count_marker 221 (j_markers j))%nat then [(16%nat, j_restart j)] else []) <= 16) by (destruct (_ <? _)%nat; flens; lia).
    assert (X2 : flen (if match_ids (map c_id (j_comps j)) =? 3 then map (fun y => (8%nat, y)) (map c_id (j_comps j)) else []) <= 32).
    { destruct (_ =? 3); [|flens; lia]. rewrite (flen_map 8 (fun y => y)), map_length. lia. }
    lia. }
  unfold flen in FL. rewrite Z.shiftr_div_pow2 by lia. change (2 ^ 3) with 8.
  pose proof (Nat.div_mod (fields_len fl + 7) 8 ltac:(lia)) as D1. pose proof (Z.div_mod (Z.of_nat (length pad) + 43) 8 ltac:(lia)) as D2. pose proof (Z.mod_pos_bound (Z.of_nat (length pad) + 43) 8 ltac:(lia)) as D3.
  lia.
Qed.
