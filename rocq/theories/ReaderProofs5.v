(** From JPEG file to container and back: the padding bits that neither side uses, and the size estimate. *)
From Verif Require Import Base JpegModel CoefModel ClusterModel HeaderModel PropsHeader JBitModel JSegModel JFileModel JFileProofs
  InternalsModel InternalsProofs InternalsProofs2 MetaModel Encoder JpegSpec JSegProofs2 ReaderProofs1 ReaderProofs2 ReaderProofs3 ReaderProofs4.

Lemma enc_metas_normal j : forall cs off, enc_metas (normal j) off cs = enc_metas j off cs.
Proof. induction cs as [|c cs IH]; intros off; cbn [enc_metas]; [reflexivity|]. unfold normal at 1 2 3 4. cbn [j_quant j_mcu_cols j_mcu_rows].
  destruct (c_quant c <? 0); [reflexivity|]. unfold obind. destruct (nth_error _ _); [|reflexivity]. destruct (_ <? _)%nat; [reflexivity|]. 
  destruct (select_context_bits _); [|reflexivity]. rewrite IH. reflexivity.
Qed.

Lemma encode_internals_normal j w h : encode_internals w h (internals_of (normal j)) = encode_internals w h (internals_of j).
Proof.
  unfold encode_internals, internals_of, normal. cbn [in_markers in_restart in_huff in_scans in_quant in_ids in_zero_pad in_padding j_restart j_quant j_huff j_comps j_scans j_markers j_zero_pad j_padding].
  destruct (j_zero_pad j); reflexivity.
Qed.

Lemma aux_estimate_normal j : aux_estimate (normal j) = aux_estimate j.
Proof. unfold aux_estimate, normal. cbn [j_huff j_scans j_markers j_inter j_zero_pad j_padding]. destruct (j_zero_pad j); reflexivity. Qed.

Lemma serialize_normal O j len sc cm cl dc hd ac : serialize_sections O (normal j) len sc cm cl dc hd ac = serialize_sections O j len sc cm cl dc hd ac.
Proof.
  unfold serialize_sections. rewrite aux_estimate_normal. unfold encode_aux. rewrite encode_internals_normal.
  unfold normal. cbn [j_width j_height j_version j_app j_com j_quant j_comps j_inter j_tail]. reflexivity.
Qed.

Lemma encode_normal O j len : brunsli_encode_jpeg O (normal j) len = brunsli_encode_jpeg O j len.
Proof.
  unfold brunsli_encode_jpeg. rewrite enc_metas_normal. change (j_comps (normal j)) with (j_comps j). change (j_version (normal j)) with (j_version j). change (enc_orders (normal j)) with (enc_orders j).
  destruct (length (j_comps j) =? 0)%nat; [reflexivity|]. cbv zeta. unfold obind. destruct (enc_metas _ _ _); [|reflexivity]. destruct (encode_dc _ _); [|reflexivity]. destruct (encode_ac _ _ _ _ _); [|reflexivity].
  destruct (entropy_codes _ _ _ _); [|reflexivity]. apply serialize_normal.
Qed.

Lemma write_sections_normal j : forall ms w, write_sections (normal j) ms w = write_sections j ms w.
Proof.
  induction ms as [|m ms IH]; intros w; cbn [write_sections]; [reflexivity|]. change (write_section (normal j) m w) with (write_section j m w).
  destruct (write_section j m w) as [[out w']| |]; cbn [jbind]; [|reflexivity|reflexivity]. rewrite IH. reflexivity.
Qed.

Lemma write_normal j : write_jpeg (normal j) = write_jpeg j.
Proof.
  unfold write_jpeg. change (j_version (normal j)) with (j_version j). change (j_markers (normal j)) with (j_markers j).
  destruct (_ =? 1); [reflexivity|]. destruct (_ =? 0); [reflexivity|]. cbv zeta. rewrite write_sections_normal. unfold normal. cbn [j_huff j_quant j_app j_com j_inter j_scans j_zero_pad j_padding].
  destruct (j_zero_pad j); reflexivity.
Qed.

Lemma sumZ_bound {A} (f : A -> Z) (b : Z) l : Forall (fun x => f x <= b) l -> sumZ (map f l) <= b * len l.
Proof.
  induction 1 as [|x l H F IH]; [unfold sumZ, len; cbn; lia|]. cbn [map]. rewrite sumZ_cons. unfold len in *. cbn [length]. lia.
Qed.

Lemma inter_sum l : Forall (fun s => bytes s /\ 1 <= len s) l -> sumZ (map (fun s => 5 + Z.of_nat (length s)) l) <= 6 * len (concat l).
Proof.
  induction 1 as [|x l [_ H] F IH]; [unfold sumZ, len; cbn; lia|]. cbn [map concat]. rewrite sumZ_cons, len_app. unfold len in *. lia.
Qed.

(** A JPEGData that was read from a file of less than 4 GB and that the encoder accepts: EstimateAuxDataSize does not overflow. *)
Lemma reader_aux_small data J O n out : bytes data -> len data < 2 ^ 32 -> read_jpeg RAll data = JOk J -> brunsli_encode_jpeg O J n = Some out -> aux_estimate J < 2 ^ 63.
Proof.
  intros Y LD E EN. pose proof (reader_jpeg_ok data J Y ltac:(change (2 ^ 61) with 2305843009213693952; change (2 ^ 32) with 4294967296 in LD; lia) E) as JO.
  destruct (jo_internals _ JO) as (_ & _ & _ & _ & _ & _ & _ & _ & _ & _ & IL & _ & _ & _ & HW & HH).
  destruct (jo_picture _ JO) as (PW & PH & _).
  assert (PAD : (if j_zero_pad J then Z.of_nat (length (j_padding J)) else 0) < 2 ^ 32).
  { unfold brunsli_encode_jpeg in EN. destruct (_ =? _)%nat; [discriminate|]. cbv zeta in EN. unfold obind at 1 in EN. destruct (enc_metas _ _ _); [|discriminate].
    unfold obind at 1 in EN. destruct (encode_dc _ _); [|discriminate]. unfold obind at 1 in EN. destruct (encode_ac _ _ _ _ _); [|discriminate]. unfold obind at 1 in EN. destruct (entropy_codes _ _ _ _); [|discriminate].
    unfold serialize_sections in EN. unfold obind at 1 in EN. destruct (encode_header _ _ _ _); [|discriminate]. unfold obind at 1 in EN. destruct (encode_section _ _ _); [|discriminate].
    cbv zeta in EN. unfold obind at 1 in EN. destruct (encode_aux _ _ _ _) as [aux|] eqn:EA; [|discriminate]. clear EN.
    unfold encode_aux in EA. unfold obind in EA. destruct (encode_internals _ _ _) as [fs|] eqn:EI; [|discriminate]. clear EA. unfold encode_internals in EI. cbv zeta in EI.
    destruct (negb _ || negb _); [discriminate|]. unfold obind at 1 in EI. destruct (encode_huffs _); [|discriminate]. destruct (negb _); [discriminate|]. unfold obind at 1 in EI. destruct (encode_quant_heads _); [|discriminate].
    match type of EI with (if ?b then _ else _) = _ => destruct b eqn:EB; [discriminate|] end. apply Z.ltb_ge in EB. clear EI.
    change (in_ids (internals_of J)) with (in_ids (internals_of (normal J))) in EB. change (in_zero_pad (internals_of J)) with (j_zero_pad J) in EB. change (in_padding (internals_of J)) with (j_padding J) in EB.
    pose proof (padding_limit_small (j_width J) (j_height J) _ HW HH (proj2 IL)) as PL. destruct (j_zero_pad J); [lia|cbn [length] in *; lia]. }
  destruct (read_jpeg_parts data J Y E) as (st & pos & tail & comps & HP & _ & PA & CT & _ & _ & EJ & _ & LT & _ & LH).
  destruct PA as [_ _ _ _ _ _ _ P8 P9 _ _ _ _ _ _ _]. destruct CT as [_ C2 C3 _ _ C6].
  unfold aux_estimate. rewrite EJ in *. cbn [set_comps set_tail j_huff j_scans j_markers j_inter j_zero_pad j_padding] in *. clear EJ E EN JO IL.
  set (j := rf_j st) in *. pose proof (inter_sum _ C2) as S1.
  pose proof (sumZ_bound (fun s => 7 * Z.of_nat (length (si_resets s)) + 7 * Z.of_nat (length (si_zero_runs s))) (14 * 2 ^ 23) (j_scans j)) as S2.
  specialize (S2 ltac:(eapply Forall_impl; [|exact P8]; cbv beta; unfold len; intros s (H1 & H2 & _); lia)).
  pose proof (len_nonneg (j_scans j)). pose proof (len_nonneg tail).
  rewrite Z.shiftr_div_pow2 by lia. change (2 ^ 3) with 8. change (2 ^ 32) with 4294967296 in *. change (2 ^ 63) with 9223372036854775808. change (14 * 2 ^ 23) with 117440512 in S2.
  assert (DV : forall x, x < 4294967296 -> (x + 43) / 8 < 4294967296) by (intros x Hx; apply Z.div_lt_upper_bound; lia).
  specialize (DV _ PAD). unfold len in *. lia.
Qed.
