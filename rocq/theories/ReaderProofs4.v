(** Every JPEGData the JPEG reader returns satisfies [jpeg_ok]. *)
From Verif Require Import Base JpegModel LehmerModel LehmerProofs CoefModel DCProofs HeaderModel HeaderProofs PropsHeader JBitModel JReadProofs JHuffModel JScanModel JScanProofs1 JScanProofs6 JScanProofs8 JScanProofs9 JSegModel JSegProofs1 JSegProofs2 JFileModel JFileProofs
  InternalsModel InternalsProofs InternalsProofs2 MetaProofs QuantProofs Encoder JpegSpec ReaderProofs1 ReaderProofs2 ReaderProofs3.

Lemma start_parts : parts 2 start.
Proof.
  constructor; unfold start, len; cbn [rf_j rf_sof rf_dri empty_jpeg j_version j_max_h j_max_v j_comps j_huff j_quant j_scans j_restart j_zero_pad j_padding j_app j_com j_tail concat length]; auto; try discriminate; try lia.
  split; [constructor|discriminate].
Qed.

Lemma start_counts : counts 2 start.
Proof. constructor; unfold start, len; cbn [rf_j rf_dri empty_jpeg j_inter j_markers j_huff concat length count_marker filter lasts]; auto; try discriminate; try lia. Qed.

Lemma comp_coeffs M comps c : coefs_inv M comps -> In c comps ->
  Forall (fun b => block_ok b /\ forall v, In v (tl b) -> Z.abs v <= 2054) (c_coeffs c).
Proof.
  intros CI I. apply (In_nth _ _ no_comp) in I as (i & Hi & E). apply Forall_forall. intros b Ib. apply (In_nth _ _ []) in Ib as (k & Hk & <-).
  assert (EC : comp_at comps (Z.of_nat i) = c) by (unfold comp_at; rewrite Nat2Z.id; exact E).
  assert (IC : in_comps comps (Z.of_nat i, Z.of_nat k)) by (split; cbn [fst snd]; [lia|rewrite EC; lia]).
  specialize (CI _ IC). unfold blk in CI. cbn [fst snd] in CI. rewrite EC, Nat2Z.id in CI. destruct CI as [L CK].
  set (b := nth k (c_coeffs c) []) in *.
  assert (AT : forall n, (n < 64)%nat -> (n = 0%nat -> i16 (nth n b 0)) /\ (n <> 0%nat -> Z.abs (nth n b 0) <= 2047)).
  { intros n Hn. destruct (natural_onto (Z.of_nat n) ltac:(lia)) as (z & Hz & EZ). destruct (CK z Hz) as (_ & _ & K1 & K2). unfold zat in K1, K2. rewrite EZ, Nat2Z.id in K1, K2.
    assert (N0 : nat_at 0 = 0) by reflexivity. split.
    - intros ->. apply K1. destruct (Z.eq_dec z 0) as [H|H]; [exact H|]. exfalso.
      assert (X : forallb (fun q => negb (nat_at q =? 0)) (map Z.of_nat (seq 1 63)) = true) by (vm_compute; reflexivity). rewrite forallb_forall in X. specialize (X z).
      rewrite EZ in X. assert (In z (map Z.of_nat (seq 1 63))) as IZ by (apply in_map_iff; exists (Z.to_nat z); split; [lia|apply in_seq; lia]). specialize (X IZ). discriminate.
    - intros NN. apply K2. intros ->. rewrite N0 in EZ. lia. }
  split; [split; [exact L|]|].
  - apply Forall_forall. intros v I. apply (In_nth _ _ 0) in I as (n & Hn & <-). destruct (AT n ltac:(lia)) as [A1 A2]. destruct (Nat.eq_dec n 0) as [Z0|Z0]; [exact (A1 Z0)|]. specialize (A2 Z0). unfold i16. lia.
  - intros v I. apply (In_nth _ _ 0) in I as (n & Hn & E2). assert (LT : length (tl b) = 63%nat) by (destruct b; [discriminate|cbn [length tl] in *; lia]).
    assert (ET : nth n (tl b) 0 = nth (S n) b 0) by (destruct b; [discriminate|reflexivity]). rewrite ET in E2. rewrite <- E2. destruct (AT (S n) ltac:(lia)) as [_ A2]. specialize (A2 ltac:(lia)). lia.
Qed.

(** What is known of a successful reading, before and after the last fixes. *)
Lemma read_jpeg_parts data J : bytes data -> read_jpeg RAll data = JOk J ->
  exists stF posF tail comps, 2 <= posF <= len data /\ rinv true stF /\ parts posF stF /\ counts posF stF /\ markers_ok (j_markers (rf_j stF)) /\ rf_sof stF = true
    /\ J = set_comps (set_tail (rf_j stF) tail) comps /\ bytes tail /\ posF + len tail = len data
    /\ Forall2 (fun c c' => fixed (j_quant (rf_j stF)) c c' /\ fixed_data c c') (j_comps (rf_j stF)) comps
    /\ (1 <= length (j_huff (rf_j stF)) <= 512)%nat.
Proof.
  intros Y. cut (jpart (read_jpeg RAll data) (fun J => exists stF posF tail comps, 2 <= posF <= len data /\ rinv true stF /\ parts posF stF /\ counts posF stF /\ markers_ok (j_markers (rf_j stF)) /\ rf_sof stF = true
    /\ J = set_comps (set_tail (rf_j stF) tail) comps /\ bytes tail /\ posF + len tail = len data
    /\ Forall2 (fun c c' => fixed (j_quant (rf_j stF)) c c' /\ fixed_data c c') (j_comps (rf_j stF)) comps
    /\ (1 <= length (j_huff (rf_j stF)) <= 512)%nat)).
  { intros H E. exact (jpart_get _ _ _ H E). }
  unfold read_jpeg. eapply jpart_bind; [apply jpart_of_post; apply (expect_marker_ok data 0); lia|]. intros m (P & M1 & M2).
  apply jpart_guard. intros G. cbv zeta. fold start.
  eapply jpart_bind; [apply jpart_conj|].
  { apply jpart_of_post. apply (read_loop_ok RAll data Y (S (length data)) 2 start); [lia|lia|apply start_inv]. }
  { apply (read_loop_part data Y (S (length data)) 2 start); [unfold len; lia|apply start_inv|apply start_parts|apply start_counts|constructor]. }
  intros [stF posF] [(RI & PF & _) (PA & CT & MK)]. cbn [fst snd is_all] in *. apply jpart_guard. intros SOF.
  apply jpart_bind with (Q := fun j => exists tail, j = set_tail (rf_j stF) tail /\ bytes tail /\ posF + len tail = len data).
  { destruct (Z.ltb_spec posF (Z.of_nat (length data))) as [H|H].
    - eapply jpart_bind; [apply jpart_eq|]. intros s E. cbn [jpart]. apply slice_sl in E as [S1 S2]. exists s. split; [reflexivity|]. split; [eapply sl_bytes; eauto|unfold len; lia].
    - cbn [jpart]. exists []. rewrite set_tail_id by apply PA. split; [reflexivity|]. split; [constructor|unfold len; cbn [length]; lia]. }
  intros j (tail & -> & YT & LT). eapply jpart_bind; [apply jpart_of_post; apply fixup_ok|]. intros comps FX. apply jpart_guard. intros G1. apply jpart_guard. intros G2. cbn [jpart].
  apply negb_true_iff, Z.eqb_neq in G1. apply Z.ltb_lt in G2. cbn [set_tail j_huff] in *.
  exists stF, posF, tail, comps. unfold len in *. repeat (split; [solve [auto | lia]|]). lia.
Qed.

Lemma Forall2_map_eq {A B C} (f : A -> C) (g : B -> C) a b : Forall2 (fun x y => g y = f x) a b -> map g b = map f a.
Proof. induction 1; cbn [map]; congruence. Qed.

Lemma Forall2_in_r {A B} (R : A -> B -> Prop) a b y : Forall2 R a b -> In y b -> exists x, In x a /\ R x y.
Proof.
  induction 1 as [|x z a b H F IH]; intros I; [destruct I|]. destruct I as [->|I]; [exists x; cbn; auto|]. destruct (IH I) as (x' & I' & R'). exists x'. cbn; auto.
Qed.

Lemma Forall2_imp {A B} (R R' : A -> B -> Prop) a b : (forall x y, R x y -> R' x y) -> Forall2 R a b -> Forall2 R' a b.
Proof. intros H. induction 1; constructor; auto. Qed.

Lemma frame_picture j : frame_in j -> j_version j = 2 -> picture_ok (j_width j) (j_height j) (j_version j) (samps (j_comps j)) (grid_of j).
Proof.
  intros [FW FH FN FI FS FMH FMV FC FR FB] V. split; [exact FW|]. split; [exact FH|]. split; [rewrite V; cbn; tauto|]. split; [rewrite samps_length; exact FN|]. split; [exact FS|].
  apply update_subsampling_ok; auto.
  - intros E. apply f_equal with (f := @length _) in E. rewrite samps_length in E. cbn [length] in E. lia.
  - unfold update_subsampling. cbv zeta. rewrite <- FMH, <- FMV, <- FC, <- FR.
    assert (EB : map (fun c => (j_mcu_cols j * fst c, j_mcu_rows j * snd c)) (samps (j_comps j)) = map (fun c => (c_wb c, c_hb c)) (j_comps j)).
    { unfold samps. rewrite map_map. cbn [fst snd]. apply map_ext_in. intros c I. rewrite Forall_forall in FB. destruct (FB c I) as (-> & -> & _). reflexivity. }
    rewrite EB. match goal with |- (if ?b then _ else _) = _ => assert (X : b = true) end; [|rewrite X; reflexivity].
    apply forallb_forall. intros b I. apply in_map_iff in I as (c & <- & I). cbn [fst snd]. rewrite Forall_forall in FB, FS. destruct (FB c I) as (E1 & E2 & E3).
    assert (SO : samp_ok (c_h c, c_v c)) by (apply FS; apply in_map_iff; eauto). destruct SO as [SO1 SO2]. cbn [fst snd] in *.
    assert (NN : forall a b, 0 <= a -> 0 <= HeaderModel.div_ceil a b \/ b <= 0). { intros a b0 Ha. destruct (Z_le_dec b0 0); [right; lia|left]. unfold HeaderModel.div_ceil. apply Z.div_pos; lia. }
    assert (M1 : 1 <= j_max_h j) by (rewrite FMH; apply (proj1 (max_samp_spec fst _ 1 ltac:(lia)))). 
    assert (M2 : 1 <= j_max_v j) by (rewrite FMV; apply (proj1 (max_samp_spec snd _ 1 ltac:(lia)))).
    destruct (NN (j_width j) (j_max_h j * 8) ltac:(lia)) as [C1|]; [|lia]. destruct (NN (j_height j) (j_max_v j * 8) ltac:(lia)) as [C2|]; [|lia]. rewrite <- FC in C1. rewrite <- FR in C2.
    assert (0 <= c_wb c) by (rewrite E1; apply Z.mul_nonneg_nonneg; lia). assert (0 <= c_hb c) by (rewrite E2; apply Z.mul_nonneg_nonneg; lia).
    assert (0 <= c_wb c * c_hb c) by (apply Z.mul_nonneg_nonneg; lia). change (2 ^ 32) with 4294967296. change (2 ^ 21) with 2097152 in *. rewrite Z.mod_small by lia. apply Z.leb_le. exact E3.
Qed.

Theorem reader_jpeg_ok data J : bytes data -> len data < 2 ^ 61 -> read_jpeg RAll data = JOk J -> jpeg_ok (normal J).
Proof.
  intros Y LD E. destruct (read_jpeg_parts data J Y E) as (st & pos & tail & comps & HP & RI & PA & CT & MK & SOF & -> & YT & LT & FX & LH).
  destruct RI as (_ & _ & _ & _ & _ & _ & RF & _). destruct (RF eq_refl SOF) as [FR CI]. clear RF.
  destruct PA as [P1 P2 P3 P4 P5 P6 P7 P8 P9 P10 P11 P12 P13 P14 P15 P16]. specialize (P3 SOF). destruct CT as [C1 C2 C3 C4 C5 C6].
  set (j := rf_j st) in *.
  assert (ES : samps comps = samps (j_comps j)). { apply Forall2_map_eq. eapply Forall2_imp; [|exact FX]. cbv beta. intros x y (_ & H1 & H2 & _). congruence. }
  assert (EI : ids comps = ids (j_comps j)). { apply Forall2_map_eq. eapply Forall2_imp; [|exact FX]. cbv beta. intros x y ((H1 & _) & _). congruence. }
  assert (EB : map (fun c => (c_wb c, c_hb c)) comps = map (fun c => (c_wb c, c_hb c)) (j_comps j)). { apply Forall2_map_eq. eapply Forall2_imp; [|exact FX]. cbv beta. intros x y (_ & _ & _ & H1 & H2 & _). congruence. }
  assert (N1 : (1 <= length (j_quant j))%nat).
  { destruct (j_comps j) as [|x a] eqn:EJ; [destruct P3 as [_ _ FN _]; rewrite EJ in FN; cbn [length] in FN; lia|]. inversion FX as [|x' y a' b [(_ & _ & _ & q & H & _) _] _]; subst. destruct (j_quant j); [|cbn [length]; lia].
    unfold aget in H. destruct (_ <? 0); [discriminate|]. destruct (Z.to_nat _); discriminate. }
  constructor; cbn [normal set_comps set_tail j_width j_height j_version j_max_h j_max_v j_mcu_rows j_mcu_cols j_restart j_app j_com j_quant j_huff j_comps j_scans j_markers j_inter j_tail j_zero_pad j_padding].
  - pose proof (frame_picture j P3 P1) as X. unfold grid_of in *. unfold normal, set_comps, set_tail. cbn [j_max_h j_max_v j_mcu_rows j_mcu_cols j_comps]. fold (samps comps). rewrite ES, EB. exact X.
  - unfold internals_ok, internals_of, normal, set_comps, set_tail. cbn [in_markers in_restart in_huff in_scans in_quant in_ids in_zero_pad in_padding j_restart j_quant j_huff j_comps j_scans j_markers j_zero_pad j_padding].
    rewrite !map_length. destruct P3 as [FW FH FN FI FS _ _ _ _ _]. destruct P12 as [B1 B2].
    split; [exact MK|]. split; [exact P10|]. split. { intros Z0. apply P11. destruct (rf_dri st); [specialize (C5 eq_refl); lia|reflexivity]. }
    split; [exact P4|]. split; [exact LH|]. split; [symmetry; exact C4|]. split; [exact P7|].
    split. { apply Forall_map. eapply Forall_impl; [|exact P5]. intros q [Q _]. exact Q. }
    split; [lia|]. split. { fold (ids comps). rewrite EI. exact FI. }
    split. { rewrite <- (ids_length comps), EI, ids_length. exact FN. }
    split. { destruct (j_zero_pad j); [exact B1|constructor]. }
    split. { intros Z1. rewrite Z1. auto. }
    split. { intros Z1. rewrite Z1. reflexivity. }
    split; lia.
  - split; [exact C1|]. apply Forall_forall. intros s I. rewrite Forall_forall in C2. destruct (C2 s I) as [B _]. split; [exact B|].
    assert (X : len s <= len (concat (j_inter j))). { clear - I. induction (j_inter j) as [|a l IH]; [destruct I|]. cbn [concat]. rewrite len_app. pose proof (len_nonneg (concat l)). pose proof (len_nonneg a). destruct I as [->|I]; [lia|]. specialize (IH I). lia. }
    unfold len in *. change (2 ^ 61) with 2305843009213693952 in LD. change (2 ^ 63) with 9223372036854775808. lia.
  - exact P13.
  - exact P14.
  - exact YT.
  - rewrite !concat_app, !app_length. cbn [concat]. rewrite app_nil_r. unfold len in *. change (2 ^ 61) with 2305843009213693952 in LD. change (2 ^ 62) with 4611686018427387904. lia.
  - eapply Forall_impl; [|exact P5]. intros q [_ Q]. exact Q.
  - apply Forall_forall. intros c I. destruct (Forall2_in_r _ _ _ _ FX I) as (x & Ix & _ & H1 & H2 & H3 & H4 & H5).
    rewrite H3, H4, H5. split; [apply (fr_comp j FR x Ix)|]. eapply comp_coeffs; eauto.
Qed.
