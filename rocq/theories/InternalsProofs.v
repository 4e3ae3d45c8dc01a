(** Round trip and chunking of the JPEGInternals section. *)
From Verif Require Import Base BitModel BitProofs CodesModel CodesProofs ProgLogic LehmerModel LehmerProofs Tables JpegModel QuantModel QuantProofs Stream InternalsModel.

(** ** What the encoder is given (guaranteed by the JPEG reader) *)

Definition markers_ok (m : list Z) : Prop :=
  exists body, m = body ++ [217] /\ Forall (fun x => 192 <= x <= 255 /\ x <> 217) body.

Definition huff_ok (h : huffcode) : Prop :=
  length (hc_counts h) = 17%nat /\ length (hc_values h) = 257%nat /\
  Forall (fun c => 0 <= c) (hc_counts h) /\ nth 0 (hc_counts h) 0 = 0 /\
  (0 <= hc_slot h <= 3 \/ 16 <= hc_slot h <= 19) /\
  Forall (fun v => v = 0) (skipn (Z.to_nat (sumZ (hc_counts h))) (hc_values h)).

Definition comp_ok (c : compscan) : Prop := 0 <= cs_comp c < 4 /\ 0 <= cs_dc c < 4 /\ 0 <= cs_ac c < 4.

Fixpoint resets_ok (last : Z) (l : list Z) : Prop :=
  match l with [] => True | b :: r => last < b < last + 1 + 2 ^ 28 /\ b <= 2 ^ 30 /\ resets_ok b r end.
Fixpoint runs_ok (last : Z) (l : list (Z * Z)) : Prop :=
  match l with [] => True | (b, n) :: r => last < b < last + 2 ^ 28 /\ b <= 2 ^ 30 /\ 0 < n /\ runs_ok b r end.

Definition scan_ok (s : scaninfo) : Prop :=
  0 <= si_ss s < 64 /\ 0 <= si_se s < 64 /\ 0 <= si_ah s < 16 /\ 0 <= si_al s < 16 /\
  (1 <= length (si_comps s) <= 4)%nat /\ Forall comp_ok (si_comps s) /\
  resets_ok (-1) (si_resets s) /\ runs_ok (-1) (si_zero_runs s).

Definition qhead_ok (q : Z * bool * Z) : Prop := let '(ix, _, prec) := q in 0 <= ix < 4 /\ 0 <= prec <= 1.

Lemma some_inj {A} (x y : A) : Some x = Some y -> x = y.
Proof. congruence. Qed.

Lemma bits_of_len n v : length (bits_of n v) = n.
Proof. apply bits_of_length. Qed.

Lemma fields_bits_cons n v l : fields_bits ((n, v) :: l) = bits_of n v ++ fields_bits l.
Proof. reflexivity. Qed.

(** ** Markers *)
Lemma read_markers_dec : forall body fuel, (length body < fuel)%nat ->
  Forall (fun x => 192 <= x <= 255 /\ x <> 217) body ->
  dec 0 (read_markers fuel) (fields_bits (map (fun y => (6%nat, y - 192)) (body ++ [217]))) (body ++ [217]).
Proof.
  induction body as [|b r IH]; intros fuel Hf HF; (destruct fuel as [|fuel]; [cbn in Hf; lia|]); cbn [read_markers map app].
  - apply dec_Need; [cbn; lia|]. rewrite fields_bits_cons. apply dec_Read; [cbn; lia|]. cbv beta zeta.
    change (192 + (217 - 192)) with 217. change (217 =? 217) with true. cbv iota. apply dec_ret.
  - inversion HF as [|? ? Hb HF']; subst. cbn in Hf. rewrite fields_bits_cons.
    apply dec_Need; [rewrite app_length, bits_of_len; lia|]. apply dec_Read; [change (2 ^ Z.of_nat 6) with 64; lia|]. cbv beta zeta.
    replace (192 + (b - 192)) with b by lia. destruct (Z.eqb_spec b 217); [lia|].
    rewrite <- (app_nil_r (fields_bits _)).
    eapply dec_bind; [apply IH; [lia|exact HF']|apply dec_ret|cbn; lia].
Qed.

Lemma markers_fields_ok m : Forall (fun x => 192 <= x <= 255) m -> fields_ok (map (fun y => (6%nat, y - 192)) m).
Proof.
  induction 1; cbn [map]; [apply fields_ok_nil|]. apply fields_ok_cons. split; [|exact IHForall].
  change (2 ^ Z.of_nat 6) with 64. lia.
Qed.

(** ** Huffman codes *)
Lemma read_counts_dec mc : mc <= 256 -> forall cs i total space fs tot,
  0 <= total -> Forall (fun c => 0 <= c) cs -> encode_counts i cs total space mc = Some (fs, tot) ->
  fields_ok fs /\ dec 0 (read_counts (length cs) i total space mc) (fields_bits fs) (cs, tot) /\ tot = total + sumZ cs /\
  (0 <= total <= mc -> 0 <= tot <= mc).
Proof.
  intros Hmc. induction cs as [|c r IH]; intros i total space fs tot H0t HF E; cbn [encode_counts length read_counts] in *.
  - injection E as <- <-. split; [apply fields_ok_nil|]. split; [apply dec_ret|]. unfold sumZ; cbn [fold_right]. split; [lia|auto].
  - inversion HF as [|? ? Hc HF']; subst. cbv zeta in *.
    set (limit := Z.min (mc - total) (Z.shiftr space (16 - Z.of_nat i))) in *.
    assert (Hlim : limit <= mc - total) by (unfold limit; lia).
    destruct (Z.ltb_spec limit c) as [|Hl]; [discriminate|]. destruct (Z.ltb_spec 0 limit) as [H0|H0].
    + destruct (encode_counts (S i) r (total + c) _ mc) as [[fs' tot']|] eqn:E'; [|discriminate]. cbn [obind fst snd] in E.
      injection E as <- <-. destruct (IH (S i) (total + c) _ _ _ ltac:(lia) HF' E') as (F & D & T & U).
      assert (Hr : 0 <= c < 2 ^ Z.of_nat (Z.to_nat (Z.log2 limit) + 1)).
      { pose proof (Z.log2_spec limit H0) as [_ L]. pose proof (Z.log2_nonneg limit).
        replace (Z.of_nat (Z.to_nat (Z.log2 limit) + 1)) with (Z.succ (Z.log2 limit)) by lia. lia. }
      split; [|split; [|split]].
      * apply fields_ok_cons. split; [split; [|exact Hr]|exact F].
        assert (limit <= 256) by lia. pose proof (Z.log2_le_mono limit 256 ltac:(lia)). change (Z.log2 256) with 8 in *. lia.
      * rewrite fields_bits_cons. apply dec_Need; [rewrite app_length, bits_of_len; lia|]. apply dec_Read; [exact Hr|]. cbv beta.
        destruct (Z.ltb_spec limit c); [lia|]. rewrite <- (app_nil_r (fields_bits _)).
        eapply dec_bind; [exact D|apply dec_ret|cbn; lia].
      * unfold sumZ in *; cbn [fold_right]. lia.
      * intros Ht. apply U. lia.
    + destruct (IH (S i) total _ _ _ H0t HF' E) as (F & D & T & U). assert (c = 0) by lia. subst c.
      split; [exact F|]. split; [|split; [unfold sumZ in *; cbn [fold_right]; lia|exact U]].
      rewrite <- (app_nil_r (fields_bits _)). eapply dec_bind; [exact D|apply dec_ret|cbn; lia].
Qed.

Lemma read_perm_dec : forall vs values fs, (length values <= 256)%nat -> encode_perm vs values = Some fs ->
  fields_ok fs /\ dec 0 (read_perm (length vs) values) (fields_bits fs) vs.
Proof.
  induction vs as [|v r IH]; intros values fs HL E; cbn [encode_perm length read_perm] in *.
  - injection E as <-. split; [apply fields_ok_nil|apply dec_ret].
  - unfold pc_remove_value in E. destruct (find_erase v values) as [[i vs']|] eqn:Ef; [|discriminate].
    destruct (encode_perm r vs') as [x|] eqn:Ex; [|discriminate]. cbn [obind] in E. injection E as <-.
    destruct (find_erase_spec _ _ _ _ Ef) as (Ht & Hi & _).
    pose proof (find_erase_perm _ _ _ _ Ef) as P. apply Permutation.Permutation_length in P. cbn [length] in P.
    destruct (IH vs' x ltac:(lia) Ex) as [F D].
    pose proof (pc_num_bits_fits values i Hi) as Hn.
    assert (Hb : (pc_num_bits values <= 8)%nat).
    { unfold pc_num_bits. destruct (_ <=? 1); [lia|].
      pose proof (Z.log2_le_mono (Z.of_nat (length values) - 1) 255 ltac:(lia)). change (Z.log2 255) with 7 in *. lia. }
    assert (Hd : (pc_num_bits values <= Nat.div2 (pc_num_bits values + 1) * 2 <= 10)%nat).
    { rewrite Nat.div2_div. pose proof (Nat.div_mod (pc_num_bits values + 1) 2 ltac:(lia)).
      pose proof (Nat.mod_upper_bound (pc_num_bits values + 1) 2 ltac:(lia)). lia. }
    split.
    + apply fields_ok_app. split; [apply encode_limited_varint_ok; lia|exact F].
    + rewrite fields_bits_app. eapply dec_bind.
      * apply decode_limited_varint_dec; [lia|lia|]. split; [lia|]. eapply Z.lt_le_trans; [apply Hn|]. apply Z.pow_le_mono_r; lia.
      * cbv beta. unfold pc_remove. rewrite Nat2Z.id, Ht. rewrite <- (app_nil_r (fields_bits x)).
        eapply dec_bind; [exact D|apply dec_ret|cbn; lia].
      * lia.
Qed.

Lemma huff_max_len_spec n counts : let m := huff_max_len n counts in
  (m <= n)%nat /\ ((0 < m)%nat -> nth m counts 0 <> 0) /\ (forall j, (m < j <= n)%nat -> nth j counts 0 = 0).
Proof.
  induction n as [|n IH]; cbn [huff_max_len]; [repeat split; intros; lia|].
  destruct (Z.eqb_spec (nth (S n) counts 0) 0) as [E|E].
  - destruct IH as (H1 & H2 & H3). split; [lia|]. split; [exact H2|]. intros j Hj.
    destruct (Nat.eq_dec j (S n)) as [->|]; [exact E|]. apply H3. lia.
  - split; [lia|]. split; [auto|]. intros; lia.
Qed.

Lemma firstn_S_nth {A} (d : A) l n : (n < length l)%nat -> firstn (S n) l = firstn n l ++ [nth n l d].
Proof.
  revert n. induction l as [|x l IH]; intros [|n] H; cbn in *; try lia; [reflexivity|]. rewrite <- IH by lia. reflexivity.
Qed.

Lemma sumZ_app l1 l2 : sumZ (l1 ++ l2) = sumZ l1 + sumZ l2.
Proof. induction l1; unfold sumZ in *; cbn [fold_right app]; lia. Qed.

Lemma sumZ_zeros l : Forall (fun v => v = 0) l -> sumZ l = 0.
Proof. induction 1; unfold sumZ in *; cbn [fold_right]; lia. Qed.

Lemma zeros_repeat l : Forall (fun v => v = 0) l -> l = repeat 0 (length l).
Proof. induction 1 as [|x l -> _ IH]; cbn; congruence. Qed.

Lemma upd_last {A} (l : list A) x y : upd (l ++ [x]) (length l) y = l ++ [y].
Proof. induction l; cbn [app length upd]; congruence. Qed.

(** The shape of a well-formed counts array. *)
Lemma counts_shape counts : length counts = 17%nat -> nth 0 counts 0 = 0 ->
  let ml := huff_max_len 16 counts in (0 < ml)%nat ->
  exists lo c, counts = 0 :: lo ++ c :: repeat 0 (16 - ml) /\ length lo = (ml - 1)%nat /\ c = nth ml counts 0 /\
    firstn ml (skipn 1 counts) = lo ++ [c].
Proof.
  intros HL H0 ml Hm. destruct (huff_max_len_spec 16 counts) as (M1 & M2 & M3). fold ml in M1, M2, M3.
  destruct counts as [|z counts]; [discriminate|]. cbn in H0. subst z. cbn [skipn]. cbn [length] in HL.
  exists (firstn (ml - 1) counts), (nth ml (0 :: counts) 0).
  assert (E1 : firstn ml counts = firstn (ml - 1) counts ++ [nth ml (0 :: counts) 0]).
  { destruct ml as [|m]; [lia|]. cbn [nth]. replace (S m - 1)%nat with m by lia. apply firstn_S_nth. lia. }
  assert (E2 : skipn ml counts = repeat 0 (16 - ml)).
  { replace (16 - ml)%nat with (length (skipn ml counts)) by (rewrite skipn_length; lia). apply zeros_repeat.
    apply Forall_forall. intros v Hv. apply (In_nth _ _ 0) in Hv as (j & Hj & <-). rewrite skipn_length in Hj.
    rewrite <- (firstn_skipn ml counts) in M3.
    specialize (M3 (S (ml + j)) ltac:(lia)). cbn [nth] in M3. rewrite app_nth2 in M3 by (rewrite firstn_length; lia).
    rewrite firstn_length in M3. replace (ml + j - Nat.min ml (length counts))%nat with j in M3 by lia. exact M3. }
  split; [|split; [rewrite firstn_length; lia|split; [reflexivity|exact E1]]].
  rewrite <- (firstn_skipn ml counts) at 1. rewrite E1, E2, <- app_assoc. reflexivity.
Qed.

Lemma pad_to_app n l z : (length l + length z = n)%nat -> Forall (fun v => v = 0) z -> pad_to n l = l ++ z.
Proof. intros H HF. unfold pad_to. rewrite (zeros_repeat z HF). repeat f_equal. lia. Qed.

Lemma default_values_length is_dc : (length (default_values is_dc) <= 256)%nat.
Proof. destruct is_dc; vm_compute; lia. Qed.

Lemma huff_is_stock_spec h sc sv : huff_ok h -> length sc = 16%nat -> (length sv <= 257)%nat -> sumZ sc = Z.of_nat (length sv) ->
  huff_is_stock (hc_counts h) (hc_values h) sc sv = true ->
  hc_counts h = pad_to 17 (0 :: sc) /\ hc_values h = pad_to 257 sv.
Proof.
  intros (H1 & H2 & H3 & H4 & H5 & H6) Lc Lv Sv E. unfold huff_is_stock in E. apply andb_prop in E as [E1 E2].
  apply list_eqb_eq in E1, E2. destruct (hc_counts h) as [|z counts] eqn:Ec; [discriminate|]. cbn in H4. subst z.
  cbn [skipn] in E1. cbn [length] in H1. rewrite firstn_all2 in E1 by lia. subst counts.
  split.
  - rewrite (pad_to_app 17 (0 :: sc) []); [rewrite app_nil_r; reflexivity|cbn [length]; lia|constructor].
  - assert (S1 : sumZ (0 :: sc) = sumZ sc) by (unfold sumZ; cbn [fold_right]; lia).
    rewrite S1, Sv, Nat2Z.id in H6.
    rewrite (pad_to_app 257 sv (skipn (length sv) (hc_values h))); [|rewrite skipn_length; lia|exact H6].
    rewrite <- E2 at 1. rewrite firstn_skipn. reflexivity.
Qed.

Lemma read_complex_dec h is_dc fs tot p :
  huff_ok h -> let ml := huff_max_len 16 (hc_counts h) in (0 < ml)%nat ->
  encode_counts 1 (upd (firstn ml (skipn 1 (hc_counts h))) (ml - 1) (nth ml (hc_counts h) 0 - 1)) 0 (2 ^ 16 - 2 ^ (16 - Z.of_nat ml)) (max_values is_dc) = Some (fs, tot) ->
  nth (Z.to_nat tot) (hc_values h) 0 = 256 ->
  encode_perm (firstn (Z.to_nat tot) (hc_values h)) (default_values is_dc) = Some p ->
  fields_ok (fs ++ p) /\
  dec 0 (read_complex_huff is_dc) (fields_bits ((4%nat, Z.of_nat ml - 1) :: fs ++ p)) (hc_counts h, hc_values h).
Proof.
  intros (H1 & H2 & H3 & H4 & H5 & H6) ml Hm Ec Ev Ep.
  destruct (counts_shape _ H1 H4 Hm) as (lo & c & C1 & C2 & C3 & C4). fold ml in C1, C2, C3, C4.
  rewrite C4, <- C3 in Ec. rewrite <- C2, upd_last in Ec.
  destruct (huff_max_len_spec 16 (hc_counts h)) as (M1 & M2 & _). fold ml in M1, M2.
  assert (Hc : 0 < c).
  { specialize (M2 Hm). rewrite <- C3 in M2. rewrite C1 in H3. inversion H3 as [|? ? _ H3']; subst.
    apply Forall_app in H3' as [_ H3']. inversion H3'; subst. lia. }
  assert (Hcs : Forall (fun x => 0 <= x) (lo ++ [c - 1])).
  { rewrite C1 in H3. inversion H3 as [|? ? _ H3']; subst. apply Forall_app in H3' as [H3' _]. apply Forall_app. split; [exact H3'|].
    constructor; [lia|constructor]. }
  assert (Hmc : max_values is_dc <= 256) by (destruct is_dc; cbn; lia).
  destruct (read_counts_dec _ Hmc _ 1%nat 0 _ _ _ ltac:(lia) Hcs Ec) as (F & D & T & U).
  assert (Ht : 0 <= tot <= 256) by (destruct is_dc; cbn [max_values] in *; lia).
  assert (Lt : length (firstn (Z.to_nat tot) (hc_values h)) = Z.to_nat tot) by (rewrite firstn_length; lia).
  destruct (read_perm_dec _ _ _ (default_values_length is_dc) Ep) as [F2 D2]. rewrite Lt in D2.
  split; [apply fields_ok_app; split; assumption|].
  unfold read_complex_huff. rewrite fields_bits_cons. apply dec_Need; [rewrite app_length, bits_of_len; lia|].
  apply dec_Read; [change (2 ^ Z.of_nat 4) with 16; lia|]. cbv beta zeta.
  replace (Z.to_nat (Z.of_nat ml - 1) + 1)%nat with ml by lia.
  rewrite app_length in D. cbn [length] in D. replace (length lo + 1)%nat with ml in D by lia.
  rewrite fields_bits_app. eapply dec_bind; [exact D| |lia]. cbv beta iota.
  rewrite <- (app_nil_r (fields_bits p)). eapply dec_bind; [exact D2| |cbn; lia]. cbv beta.
  assert (A1 : pad_to 17 (0 :: upd (lo ++ [c - 1]) (ml - 1) (nth (ml - 1) (lo ++ [c - 1]) 0 + 1)) = hc_counts h).
  { rewrite <- C2, upd_last, app_nth2, Nat.sub_diag by lia. cbn [nth]. replace (c - 1 + 1) with c by lia.
    rewrite C1. rewrite (pad_to_app 17 _ (repeat 0 (16 - ml))).
    - cbn [app]. rewrite <- app_assoc. reflexivity.
    - cbn [length]. rewrite app_length, repeat_length. cbn [length]. lia.
    - clear. induction (16 - ml)%nat; cbn; constructor; auto. }
  assert (A2 : pad_to 257 (firstn (Z.to_nat tot) (hc_values h) ++ [256]) = hc_values h).
  { assert (Sc : sumZ (hc_counts h) = tot + 1).
    { rewrite C1. change (0 :: lo ++ c :: repeat 0 (16 - ml)) with ((0 :: lo) ++ [c] ++ repeat 0 (16 - ml)). rewrite !sumZ_app, (sumZ_zeros (repeat _ _)).
      - rewrite sumZ_app in T. unfold sumZ in *; cbn [fold_right] in *. lia.
      - clear. induction (16 - ml)%nat; cbn; constructor; auto. }
    rewrite Sc in H6. replace (Z.to_nat (tot + 1)) with (S (Z.to_nat tot)) in H6 by lia.
    rewrite (pad_to_app 257 _ (skipn (S (Z.to_nat tot)) (hc_values h))); [| |exact H6].
    - rewrite <- Ev, <- firstn_S_nth by lia. apply firstn_skipn.
    - rewrite app_length, Lt, skipn_length. cbn [length]. lia. }
  rewrite A1, A2. apply dec_ret.
Qed.

Lemma slot_split slot : (0 <= slot <= 3 \/ 16 <= slot <= 19) ->
  0 <= Z.land slot 15 < 4 /\ 0 <= Z.shiftr slot 4 < 2 /\
  Z.land slot 15 + (if Z.shiftr slot 4 =? 0 then 0 else 16) = slot.
Proof.
  intros H. change 15 with (Z.ones 4). rewrite Z.land_ones by lia. rewrite Z.shiftr_div_pow2 by lia.
  change (2 ^ 4) with 16. destruct (Z.eqb_spec (slot / 16) 0); dlia.
Qed.

Lemma read_huff_dec h known fs : huff_ok h -> encode_huff h known = Some fs ->
  fields_ok fs /\ dec 0 (read_huff known) (fields_bits fs) h.
Proof.
  intros Hok E. unfold encode_huff in E.
  destruct (known && negb (hc_last h)) eqn:Ekl; [discriminate|].
  assert (HS : hc_slot h >= 0) by (destruct Hok as (_ & _ & _ & _ & H5 & _); lia).
  destruct (slot_split (hc_slot h)) as (S1 & S2 & S3). { apply Hok. }
  set (is_dc := Z.shiftr (hc_slot h) 4 =? 0) in *.
  set (slot := Z.land (hc_slot h) 15) in *. set (hi := Z.shiftr (hc_slot h) 4) in *.
  assert (Hhead : fields_ok ([(2%nat, slot); (1%nat, hi)] ++ (if known then [] else [(1%nat, b2z (hc_last h))]))).
  { apply fields_ok_app. split; [fok|]. destruct known; [apply fields_ok_nil|]. apply fields_ok_cons. split; [|apply fields_ok_nil].
    rewrite pow1. unfold b2z; destruct (hc_last h); lia. }
  (* common treatment of the head *)
  assert (G : forall B body,
     (body <> [] -> (2 <= length B)%nat) ->
     dec 0 (let is_last := if known then true else hc_last h in
       Read 1 (fun found =>
        if negb (found =? 0) then
          Read 1 (fun idx =>
            let i := Z.to_nat idx in
            Ret (if is_dc
                 then mkHC (pad_to 17 (0 :: nth i kStockDCCounts [])) (pad_to 257 (nth i kStockDCValues [])) (hc_slot h) is_last
                 else mkHC (pad_to 17 (0 :: nth i kStockACCounts [])) (pad_to 257 (nth i kStockACValues [])) (hc_slot h) is_last))
        else let! cv := read_complex_huff is_dc in Ret (mkHC (fst cv) (snd cv) (hc_slot h) is_last))) B h ->
     B = fields_bits body -> body <> [] ->
     dec 0 (read_huff known) (fields_bits (([(2%nat, slot); (1%nat, hi)] ++ (if known then [] else [(1%nat, b2z (hc_last h))])) ++ body)) h).
  { intros B body HB D EB Hne. specialize (HB Hne). rewrite fields_bits_app, <- EB. unfold read_huff.
    apply dec_Need.
    { rewrite !app_length, !fields_bits_app, !app_length. cbn [fields_bits]. rewrite !app_length, !bits_of_len. destruct known; cbn [fields_bits length]; rewrite ?app_length, ?bits_of_len; cbn [length]; lia. }
    rewrite fields_bits_app. cbn [fields_bits]. rewrite !app_nil_r, <- !app_assoc.
    apply dec_Read; [change (2 ^ Z.of_nat 2) with 4; lia|]. cbv beta.
    apply dec_Read; [rewrite pow1; lia|]. cbv beta zeta. fold is_dc.
    replace (slot + (if is_dc then 0 else 16)) with (hc_slot h).
    destruct known.
    - cbn [fields_bits app]. exact D.
    - cbn [fields_bits]. rewrite app_nil_r. apply dec_Read; [rewrite pow1; unfold b2z; destruct (hc_last h); lia|]. cbv beta.
      replace (negb (b2z (hc_last h) =? 0)) with (hc_last h) by (destruct (hc_last h); reflexivity). exact D. }
  assert (Hl : (if known then true else hc_last h) = hc_last h).
  { destruct known; [|reflexivity]. destruct (hc_last h); [reflexivity|discriminate]. }
  rewrite Hl in G.
  destruct (find_stock is_dc (hc_counts h) (hc_values h)) as [idx|] eqn:Est.
  - apply some_inj in E. subst fs. unfold find_stock in Est.
    assert (Hidx : (idx = 0 \/ idx = 1) /\
      hc_counts h = pad_to 17 (0 :: nth (Z.to_nat idx) (if is_dc then kStockDCCounts else kStockACCounts) []) /\
      hc_values h = pad_to 257 (nth (Z.to_nat idx) (if is_dc then kStockDCValues else kStockACValues) [])).
    { assert (K : forall i, (i < 2)%nat ->
        let cs := if is_dc then kStockDCCounts else kStockACCounts in
        let vs := if is_dc then kStockDCValues else kStockACValues in
        huff_is_stock (hc_counts h) (hc_values h) (nth i cs []) (nth i vs []) = true ->
        hc_counts h = pad_to 17 (0 :: nth i cs []) /\ hc_values h = pad_to 257 (nth i vs [])).
      { intros i Hi cs vs. apply huff_is_stock_spec; [exact Hok| | |]; unfold cs, vs; destruct is_dc;
          (destruct i as [|[|]]; [| |lia]); vm_compute; try reflexivity; lia. }
      cbv zeta in Est, K.
      match type of Est with (if ?b then _ else _) = _ => destruct b eqn:X0 end.
      - injection Est as <-. split; [lia|]. apply (K 0%nat); [lia|exact X0].
      - match type of Est with (if ?b then _ else _) = _ => destruct b eqn:X1 end; [|discriminate]. injection Est as <-. split; [lia|].
        change (Z.to_nat 1) with 1%nat. apply (K 1%nat); [lia|exact X1]. }
    destruct Hidx as (Hi & Hc & Hv).
    split; [apply fields_ok_app; split; [exact Hhead|]; fok|].
    eapply (G _ [(1%nat, 1); (1%nat, idx)]); [| |reflexivity|discriminate].
    + intros _. cbn [fields_bits]. rewrite !app_length, !bits_of_len. cbn; lia.
    + cbv zeta. cbn [fields_bits]. apply dec_Read; [rewrite pow1; lia|]. change (1 =? 0) with false. cbv beta iota. cbn [negb].
      apply dec_Read; [rewrite pow1; lia|]. cbv beta.
      match goal with |- dec _ (Ret ?x) _ _ => replace x with h; [apply dec_ret|] end.
      destruct h as [hcounts hvalues hslot hlast]; cbn [hc_counts hc_values hc_slot hc_last] in *. rewrite Hc, Hv. destruct is_dc; reflexivity.
  - destruct (negb (nth 0 (hc_counts h) 0 =? 0) || (huff_max_len 16 (hc_counts h) =? 0)%nat) eqn:Eml; [discriminate|].
    apply orb_false_iff in Eml as [_ Eml]. apply Nat.eqb_neq in Eml.
    destruct (encode_counts 1 _ 0 _ (max_values is_dc)) as [[cf tot]|] eqn:Ec; [|discriminate]. cbn [obind] in E.
    destruct (nth (Z.to_nat tot) (hc_values h) 0 =? 256) eqn:Ev; [|discriminate]. cbn [negb] in E.
    destruct (encode_perm _ (default_values is_dc)) as [p|] eqn:Ep; [|discriminate]. cbn [obind] in E. apply some_inj in E. subst fs.
    destruct (read_complex_dec h is_dc cf tot p Hok ltac:(lia) Ec ltac:(lia) Ep) as [F D].
    destruct (huff_max_len_spec 16 (hc_counts h)) as (M1 & _ & _).
    split.
    + change (([(2%nat, slot); (1%nat, hi)] ++ (if known then [] else [(1%nat, b2z (hc_last h))])) ++ (1%nat, 0) :: (4%nat, Z.of_nat (huff_max_len 16 (hc_counts h)) - 1) :: cf ++ p) with (([(2%nat, slot); (1%nat, hi)] ++ (if known then [] else [(1%nat, b2z (hc_last h))])) ++ [(1%nat, 0); (4%nat, Z.of_nat (huff_max_len 16 (hc_counts h)) - 1)] ++ cf ++ p).
      apply fields_ok_app; split; [exact Hhead|]. apply fields_ok_app. split; [|exact F].
      apply fields_ok_cons. split; [rewrite pow1; lia|]. apply fields_ok_cons. split; [change (2 ^ Z.of_nat 4) with 16; lia|apply fields_ok_nil].
    + eapply G; [| |reflexivity|discriminate].
      * intros _. rewrite !fields_bits_cons, !app_length, !bits_of_len. lia.
      * cbv zeta. rewrite fields_bits_cons. apply dec_Read; [rewrite pow1; lia|]. change (0 =? 0) with true. cbv beta iota. cbn [negb].
        rewrite <- (app_nil_r (fields_bits _)). eapply dec_bind; [exact D| |cbn; lia]. cbn [fst snd].
        destruct h; apply dec_ret.
Qed.

Lemma read_huffs_dec : forall l room fs, Forall huff_ok l -> l <> [] -> (length l <= room)%nat -> encode_huffs l = Some fs ->
  fields_ok fs /\ dec 0 (read_huffs room) (fields_bits fs) l.
Proof.
  induction l as [|h r IH]; intros room fs HF Hne HL E; [congruence|]. destruct room as [|room]; [cbn in HL; lia|].
  cbn [encode_huffs] in E. inversion HF as [|? ? Hh HF']; subst.
  destruct (encode_huff h _) as [a|] eqn:Ea; [|discriminate]. cbn [obind] in E.
  destruct (encode_huffs r) as [b|] eqn:Eb; [|discriminate]. cbn [obind] in E. injection E as <-.
  destruct (read_huff_dec _ _ _ Hh Ea) as [F D]. cbn [read_huffs].
  destruct r as [|h2 r].
  - cbn [encode_huffs] in Eb. injection Eb as <-. rewrite app_nil_r.
    split; [apply fields_ok_cons; split; [cbn; lia|exact F]|].
    rewrite fields_bits_cons. apply dec_Need; [rewrite app_length, bits_of_len; lia|]. apply dec_Read; [cbn; lia|]. cbv beta zeta.
    change (negb (b2z true =? 0)) with true. rewrite <- (app_nil_r (fields_bits a)).
    eapply dec_bind; [exact D|apply dec_ret|cbn; lia].
  - destruct (IH room b HF' ltac:(discriminate) ltac:(cbn in *; lia) eq_refl) as [F2 D2].
    split; [apply fields_ok_cons; split; [cbn; lia|apply fields_ok_app; split; assumption]|].
    rewrite fields_bits_cons. apply dec_Need; [rewrite app_length, bits_of_len; lia|]. apply dec_Read; [cbn; lia|]. cbv beta zeta.
    change (negb (b2z false =? 0)) with false. rewrite fields_bits_app.
    eapply dec_bind; [exact D| |lia]. cbv beta iota. destruct room as [|room]; [cbn in HL; lia|].
    rewrite <- (app_nil_r (fields_bits b)). eapply dec_bind; [exact D2|apply dec_ret|cbn; lia].
Qed.
