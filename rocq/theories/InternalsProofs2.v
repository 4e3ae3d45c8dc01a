(** JPEGInternals, continued: scans, table headers, ids, padding, the whole
    section. *)
From Verif Require Import Base BitModel BitProofs CodesModel CodesProofs ProgLogic LehmerModel LehmerProofs Tables JpegModel QuantModel QuantProofs Stream InternalsModel InternalsProofs.

(** ** Scan script *)
Lemma read_scan_comps_dec : forall l, Forall comp_ok l ->
  let fs := flat_map (fun c => [(2%nat, cs_comp c); (2%nat, cs_dc c); (2%nat, cs_ac c)]) l in
  fields_ok fs /\ dec 0 (read_scan_comps (length l)) (fields_bits fs) l.
Proof.
  induction l as [|c r IH]; intros HF; cbn [flat_map length read_scan_comps].
  - split; [apply fields_ok_nil|apply dec_ret].
  - inversion HF as [|? ? (H1 & H2 & H3) HF']; subst. destruct (IH HF') as [F D]. cbv zeta. split.
    + apply fields_ok_app. split; [fok|exact F].
    + rewrite fields_bits_app. cbn [fields_bits]. rewrite !app_nil_r, <- !app_assoc.
      apply dec_Need; [rewrite !app_length, !bits_of_len; lia|].
      apply dec_Read; [change (2 ^ Z.of_nat 2) with 4; lia|]. cbv beta.
      apply dec_Read; [change (2 ^ Z.of_nat 2) with 4; lia|]. cbv beta.
      apply dec_Read; [change (2 ^ Z.of_nat 2) with 4; lia|]. cbv beta.
      rewrite <- (app_nil_r (fields_bits _)). eapply dec_bind; [exact D| |cbn; lia]. destruct c; apply dec_ret.
Qed.

Lemma pow28 : 2 ^ Z.of_nat 28 = 2 ^ 28.
Proof. reflexivity. Qed.

Lemma read_resets_dec : forall l fuel last, (length l < fuel)%nat -> resets_ok last l ->
  fields_ok (encode_resets l last) /\ dec 0 (read_resets fuel last) (fields_bits (encode_resets l last)) l.
Proof.
  induction l as [|b r IH]; intros fuel last Hf Hok; (destruct fuel as [|fuel]; [cbn in Hf; lia|]); cbn [encode_resets read_resets].
  - split; [fok|]. cbn [fields_bits]. apply dec_Need; [cbn; lia|]. apply dec_Read; [cbn; lia|]. apply dec_ret.
  - destruct Hok as (H1 & H2 & H3). cbn in Hf. destruct (IH fuel b ltac:(lia) H3) as [F D]. split.
    + apply fields_ok_cons. split; [cbn; lia|]. apply fields_ok_app. split; [apply encode_varint_ok; lia|exact F].
    + rewrite fields_bits_cons. apply dec_Need; [rewrite app_length, bits_of_len; lia|]. apply dec_Read; [cbn; lia|].
      change (1 =? 0) with false. cbv beta iota. rewrite fields_bits_app.
      eapply dec_bind; [apply decode_varint_dec; [lia|rewrite pow28; lia]| |lia]. cbv beta zeta.
      replace (last + (b - last - 1) + 1) with b by lia. destruct (Z.ltb_spec (2 ^ 30) b); [lia|].
      rewrite <- (app_nil_r (fields_bits _)). eapply dec_bind; [exact D|apply dec_ret|cbn; lia].
Qed.

(** Repetitions of one run: after the first, [num] grows by one each time. *)
Fixpoint runs_steps (l : list (Z * Z)) : nat :=
  match l with [] => 0 | (_, n) :: r => Z.to_nat n + runs_steps r end%nat.

Lemma read_run_dec : forall n block num fuel B tail, 0 <= num -> block <= 2 ^ 30 ->
  dec 0 (read_runs fuel block (num + Z.of_nat n)) B tail ->
  dec 0 (read_runs (n + fuel) block num) (fields_bits (encode_run n block block) ++ B) tail.
Proof.
  induction n as [|n IH]; intros block num fuel B tail Hn Hb D; cbn [encode_run Nat.add read_runs].
  - cbn [fields_bits app]. replace (num + Z.of_nat 0) with num in D by lia. exact D.
  - rewrite fields_bits_cons, <- app_assoc. apply dec_Need; [rewrite app_length, bits_of_len; lia|]. apply dec_Read; [cbn; lia|].
    change (1 =? 0) with false. cbv beta iota. rewrite fields_bits_app, <- app_assoc.
    eapply dec_bind; [apply decode_varint_dec; [lia|rewrite pow28; lia]| |lia]. cbv beta zeta.
    replace (block + (block - block)) with block by lia. rewrite Z.ltb_irrefl. cbn [andb].
    destruct (Z.ltb_spec (2 ^ 30) block); [lia|].
    rewrite <- (app_nil_r (_ ++ B)). eapply dec_bind; [apply IH; [|exact Hb|]; [|replace (num + 1 + Z.of_nat n) with (num + Z.of_nat (S n)) by lia; exact D]; lia| |cbn; lia].
    cbn [app]. apply dec_ret.
Qed.

Lemma encode_run_ok n : forall block last, last <= block -> fields_ok (encode_run n block last).
Proof.
  induction n as [|n IH]; intros block last H; cbn [encode_run]; [apply fields_ok_nil|].
  apply fields_ok_cons. split; [cbn; lia|]. apply fields_ok_app. split; [apply encode_varint_ok; lia|apply IH; lia].
Qed.

Lemma encode_runs_ok : forall l last, runs_ok last l -> fields_ok (encode_runs l last).
Proof.
  induction l as [|[b n] r IH]; intros last Hok; cbn [encode_runs]; [fok|]. destruct Hok as (H1 & H2 & H3 & H4).
  apply fields_ok_app. split; [apply encode_run_ok; lia|]. destruct (Z.ltb_spec 0 n); [apply IH, H4|lia].
Qed.

Lemma read_runs_dec_aux : forall l fuel last num, (runs_steps l < fuel)%nat -> 0 < num ->
  runs_ok last l ->
  dec 0 (read_runs fuel last num) (fields_bits (encode_runs l last)) ((last, num) :: l).
Proof.
  induction l as [|[b n] r IH]; intros fuel last num Hf Hn Hok; cbn [encode_runs runs_steps] in *.
  - destruct fuel as [|fuel]; [lia|]. cbn [read_runs fields_bits]. apply dec_Need; [cbn; lia|]. apply dec_Read; [cbn; lia|].
    change (0 =? 0) with true. cbv beta iota. destruct (Z.ltb_spec 0 num); [apply dec_ret|lia].
  - destruct Hok as (H1 & H2 & H3 & H4). destruct (Z.to_nat n) as [|m] eqn:Em; [lia|].
    destruct (Z.ltb_spec 0 n); [|lia]. destruct fuel as [|fuel]; [lia|].
    rewrite fields_bits_app. cbn [encode_run read_runs]. rewrite fields_bits_cons, <- app_assoc.
    apply dec_Need; [rewrite app_length, bits_of_len; lia|]. apply dec_Read; [cbn; lia|].
    change (1 =? 0) with false. cbv beta iota. rewrite fields_bits_app, <- app_assoc.
    eapply dec_bind; [apply decode_varint_dec; [lia|rewrite pow28; lia]| |lia]. cbv beta zeta.
    replace (last + (b - last)) with b by lia. destruct (Z.ltb_spec (2 ^ 30) b); [lia|].
    destruct (Z.ltb_spec last b); [|lia]. destruct (Z.ltb_spec 0 num); [|lia]. cbn [andb].
    rewrite <- (app_nil_r (_ ++ fields_bits (encode_runs r b))).
    eapply dec_bind.
    + replace fuel with (m + (fuel - m))%nat by lia. apply read_run_dec; [lia|exact H2|].
      replace (0 + 1 + Z.of_nat m) with n by lia. apply IH; [lia|lia|exact H4].
    + cbn [app]. apply dec_ret.
    + cbn; lia.
Qed.

(** The first run may sit at block 0, with nothing collected before it. *)
Lemma read_runs_dec l fuel : (runs_steps l < fuel)%nat -> runs_ok (-1) l ->
  fields_ok (encode_runs l 0) /\ dec 0 (read_runs fuel 0 0) (fields_bits (encode_runs l 0)) l.
Proof.
  intros Hf Hok. destruct l as [|[b n] r].
  - split; [cbn; fok|]. destruct fuel as [|fuel]; [cbn in Hf; lia|]. cbn [read_runs encode_runs fields_bits].
    apply dec_Need; [cbn; lia|]. apply dec_Read; [cbn; lia|]. apply dec_ret.
  - cbn [runs_steps] in Hf. destruct Hok as (H1 & H2 & H3 & H4). cbn [encode_runs].
    destruct (Z.ltb_spec 0 n); [|lia]. split.
    { apply fields_ok_app. split; [apply encode_run_ok; lia|apply encode_runs_ok, H4]. }
    destruct (Z.to_nat n) as [|m] eqn:Em; [lia|]. destruct fuel as [|fuel]; [lia|].
    rewrite fields_bits_app. cbn [encode_run read_runs]. rewrite fields_bits_cons, <- app_assoc.
    apply dec_Need; [rewrite app_length, bits_of_len; lia|]. apply dec_Read; [cbn; lia|].
    change (1 =? 0) with false. cbv beta iota. rewrite fields_bits_app, <- app_assoc.
    eapply dec_bind; [apply decode_varint_dec; [lia|rewrite pow28; lia]| |lia]. cbv beta zeta.
    replace (0 + (b - 0)) with b by lia. destruct (Z.ltb_spec (2 ^ 30) b); [lia|].
    change (0 <? 0) with false. rewrite andb_false_r.
    rewrite <- (app_nil_r (_ ++ fields_bits (encode_runs r b))).
    eapply dec_bind.
    + replace fuel with (m + (fuel - m))%nat by lia. apply read_run_dec; [lia|exact H2|].
      replace (0 + 1 + Z.of_nat m) with n by lia. apply read_runs_dec_aux; [lia|lia|exact H4].
    + cbn [app]. apply dec_ret.
    + cbn; lia.
Qed.

Definition scan_steps (s : scaninfo) : nat := (length (si_resets s) + runs_steps (si_zero_runs s))%nat.

Lemma read_scan_dec s fuel : scan_ok s -> (scan_steps s < fuel)%nat ->
  fields_ok (encode_scan s) /\ dec 0 (read_scan fuel) (fields_bits (encode_scan s)) s.
Proof.
  intros (H1 & H2 & H3 & H4 & H5 & H6 & H7 & H8) Hf. unfold scan_steps in Hf. unfold encode_scan, read_scan.
  destruct (read_scan_comps_dec (si_comps s) H6) as [F1 D1].
  destruct (read_resets_dec (si_resets s) fuel (-1) ltac:(lia) H7) as [F2 D2].
  destruct (read_runs_dec (si_zero_runs s) fuel ltac:(lia) H8) as [F3 D3].
  split.
  - apply fields_ok_app. split; [|apply fields_ok_app; split; [exact F1|apply fields_ok_app; split; assumption]].
    do 4 (apply fields_ok_cons; split; [cbn; lia|]). apply fields_ok_cons. split; [change (2 ^ Z.of_nat 2) with 4; lia|apply fields_ok_nil].
  - rewrite fields_bits_app. cbn [fields_bits]. rewrite !app_nil_r, <- !app_assoc.
    apply dec_Need; [rewrite !app_length, !bits_of_len; lia|].
    apply dec_Read; [change (2 ^ Z.of_nat 6) with 64; lia|]. cbv beta.
    apply dec_Read; [change (2 ^ Z.of_nat 6) with 64; lia|]. cbv beta.
    apply dec_Read; [change (2 ^ Z.of_nat 4) with 16; lia|]. cbv beta.
    apply dec_Read; [change (2 ^ Z.of_nat 4) with 16; lia|]. cbv beta.
    apply dec_Read; [change (2 ^ Z.of_nat 2) with 4; lia|]. cbv beta.
    replace (Z.to_nat (Z.of_nat (length (si_comps s)) - 1) + 1)%nat with (length (si_comps s)) by lia.
    rewrite !fields_bits_app.
    eapply dec_bind; [exact D1| |lia]. cbv beta. eapply dec_bind; [exact D2| |lia]. cbv beta.
    rewrite <- (app_nil_r (fields_bits _)). eapply dec_bind; [exact D3| |cbn; lia]. destruct s; apply dec_ret.
Qed.

Lemma read_scans_dec : forall l fuel, Forall scan_ok l -> Forall (fun s => (scan_steps s < fuel)%nat) l ->
  fields_ok (flat_map encode_scan l) /\ dec 0 (read_scans (length l) fuel) (fields_bits (flat_map encode_scan l)) l.
Proof.
  induction l as [|s r IH]; intros fuel HF Hf; cbn [flat_map length read_scans]; [split; [apply fields_ok_nil|apply dec_ret]|].
  inversion HF as [|? ? Hs HF']; subst. inversion Hf as [|? ? Hs2 Hf']; subst.
  destruct (read_scan_dec s fuel Hs Hs2) as [F1 D1]. destruct (IH fuel HF' Hf') as [F2 D2]. split.
  - apply fields_ok_app. split; assumption.
  - rewrite fields_bits_app. eapply dec_bind; [exact D1| |lia]. cbv beta. rewrite <- (app_nil_r (fields_bits _)).
    eapply dec_bind; [exact D2|apply dec_ret|cbn; lia].
Qed.

(** ** Table headers, ids, padding *)
Lemma read_quant_heads_dec : forall l fs, Forall qhead_ok l -> encode_quant_heads l = Some fs ->
  fields_ok fs /\ dec 1 (read_quant_heads (length l)) (fields_bits fs) l.
Proof.
  induction l as [|[[ix last] prec] r IH]; intros fs HF E; cbn [encode_quant_heads length read_quant_heads] in *.
  - injection E as <-. split; [apply fields_ok_nil|apply dec_ret].
  - inversion HF as [|? ? Hq HF']; subst. unfold qhead_ok in Hq. destruct Hq as [Hq1 Hq2]. destruct r as [|q2 r].
    + destruct last; [|discriminate]. injection E as <-. split.
      * apply fields_ok_cons. split; [change (2 ^ Z.of_nat 2) with 4; lia|]. apply fields_ok_cons. split; [change (2 ^ Z.of_nat 4) with 16; lia|apply fields_ok_nil].
      * cbn [fields_bits length read_quant_heads]. rewrite app_nil_r. apply dec_Need; [rewrite !app_length, !bits_of_len; lia|].
        apply dec_Read; [change (2 ^ Z.of_nat 2) with 4; lia|]. cbv beta zeta. rewrite <- (app_nil_r (bits_of 4 prec)).
        apply dec_Read; [change (2 ^ Z.of_nat 4) with 16; lia|]. cbv beta. destruct (Z.ltb_spec 1 prec); [lia|]. apply dec_ret.
    + destruct (encode_quant_heads (q2 :: r)) as [b|] eqn:Eb; [|discriminate]. cbn [obind] in E. injection E as <-.
      destruct (IH b HF' eq_refl) as [F D]. split.
      * apply fields_ok_cons. split; [change (2 ^ Z.of_nat 2) with 4; lia|]. apply fields_ok_cons. split; [rewrite pow1; unfold b2z; destruct last; lia|].
        apply fields_ok_cons. split; [change (2 ^ Z.of_nat 4) with 16; lia|exact F].
      * rewrite !fields_bits_cons. cbn [length]. apply dec_Need; [rewrite !app_length, !bits_of_len; lia|].
        apply dec_Read; [change (2 ^ Z.of_nat 2) with 4; lia|]. cbv beta zeta.
        apply dec_Read; [rewrite pow1; unfold b2z; destruct last; lia|]. cbv beta.
        replace (negb (b2z last =? 0)) with last by (destruct last; reflexivity).
        apply dec_Read; [change (2 ^ Z.of_nat 4) with 16; lia|]. cbv beta. destruct (Z.ltb_spec 1 prec); [lia|].
        rewrite <- (app_nil_r (fields_bits b)). eapply dec_bind; [exact D|apply dec_ret|cbn; lia].
Qed.

Lemma read_n_dec bits : (bits <= 56)%nat -> forall l, Forall (fun v => 0 <= v < 2 ^ Z.of_nat bits) l ->
  fields_ok (map (fun y => (bits, y)) l) /\ dec 0 (read_n (length l) bits) (fields_bits (map (fun y => (bits, y)) l)) l.
Proof.
  intros Hb. induction l as [|v r IH]; intros HF; cbn [map length read_n]; [split; [apply fields_ok_nil|apply dec_ret]|].
  inversion HF as [|? ? Hv HF']; subst. destruct (IH HF') as [F D]. split.
  - apply fields_ok_cons. split; [split; assumption|exact F].
  - rewrite fields_bits_cons. apply dec_Need; [rewrite app_length, bits_of_len; lia|]. apply dec_Read; [exact Hv|]. cbv beta.
    rewrite <- (app_nil_r (fields_bits _)). eapply dec_bind; [exact D|apply dec_ret|cbn; lia].
Qed.

Lemma read_ids_dec ids : Forall (fun v => 0 <= v < 256) ids -> (1 <= length ids <= 4)%nat ->
  let fs := (2%nat, match_ids ids) :: (if match_ids ids =? 3 then map (fun y => (8%nat, y)) ids else []) in
  fields_ok fs /\ dec 0 (read_ids (length ids)) (fields_bits fs) ids.
Proof.
  intros HF HL. cbv zeta. destruct (read_n_dec 8 ltac:(lia) ids HF) as [F D].
  assert (Hm : 0 <= match_ids ids < 4).
  { unfold match_ids. destruct (list_eqb ids [1]); [lia|]. destruct (list_eqb ids [1; 2; 3]); [lia|]. destruct (list_eqb ids _); lia. }
  split.
  - apply fields_ok_cons. split; [change (2 ^ Z.of_nat 2) with 4; lia|]. destruct (_ =? 3); [exact F|apply fields_ok_nil].
  - rewrite fields_bits_cons. unfold read_ids. apply dec_Need; [rewrite app_length, bits_of_len; lia|].
    apply dec_Read; [change (2 ^ Z.of_nat 2) with 4; lia|]. cbv beta. unfold match_ids.
    destruct (list_eqb ids [1]) eqn:E1.
    { apply list_eqb_eq in E1. subst ids. cbn. apply dec_ret. }
    destruct (list_eqb ids [1; 2; 3]) eqn:E2.
    { apply list_eqb_eq in E2. subst ids. cbn. apply dec_ret. }
    destruct (list_eqb ids [82; 71; 66]) eqn:E3.
    { apply list_eqb_eq in E3. subst ids. cbn. apply dec_ret. }
    cbn [Z.eqb Pos.eqb]. exact D.
Qed.

Lemma read_padding_dec limit pad : Z.of_nat (length pad) <= limit -> Z.of_nat (length pad) < 2 ^ 32 -> Forall (fun v => 0 <= v < 2) pad ->
  let fs := encode_limited_varint (Z.of_nat (length pad)) 8 4 ++ map (fun y => (1%nat, y)) pad in
  fields_ok fs /\ dec 0 (read_padding limit) (fields_bits fs) pad.
Proof.
  intros H1 H2 HF. cbv zeta. destruct (read_n_dec 1 ltac:(lia) pad HF) as [F D]. split.
  - apply fields_ok_app. split; [apply encode_limited_varint_ok; lia|exact F].
  - unfold read_padding. rewrite fields_bits_app. eapply dec_bind; [apply decode_limited_varint_dec; [lia|lia|cbn [Nat.mul Nat.add]; change (2 ^ Z.of_nat 32) with (2 ^ 32); lia]| |lia].
    cbv beta. destruct (Z.ltb_spec limit (Z.of_nat (length pad))); [lia|]. rewrite Nat2Z.id. exact D.
Qed.

(** ** The bit-level part as a whole *)
Definition internals_ok (w h : Z) (x : internals) : Prop :=
  markers_ok (in_markers x) /\
  0 <= in_restart x < 65536 /\ (count_marker 221 (in_markers x) = 0%nat -> in_restart x = 0) /\
  Forall huff_ok (in_huff x) /\ (1 <= length (in_huff x) <= 512)%nat /\
  count_marker 196 (in_markers x) = length (filter hc_last (in_huff x)) /\
  Forall scan_ok (in_scans x) /\
  Forall qhead_ok (in_quant x) /\ (1 <= length (in_quant x) <= 4)%nat /\
  Forall (fun v => 0 <= v < 256) (in_ids x) /\ (1 <= length (in_ids x) <= 4)%nat /\
  Forall (fun v => 0 <= v < 2) (in_padding x) /\
  (in_zero_pad x = true -> in_padding x <> []) /\ (in_zero_pad x = false -> in_padding x = []) /\
  0 <= w <= 65535 /\ 0 <= h <= 65535.

Lemma padding_limit_small w h n : 0 <= w <= 65535 -> 0 <= h <= 65535 -> (n <= 4)%nat -> 0 <= padding_bits_limit w h n < 2 ^ 32.
Proof.
  intros Hw Hh Hn. unfold padding_bits_limit. rewrite !Z.shiftr_div_pow2 by lia. change (2 ^ 3) with 8.
  assert (0 <= (w + 15) / 8 <= 8193) by dlia. assert (0 <= (h + 15) / 8 <= 8193) by dlia.
  assert (0 <= (w + 15) / 8 * ((h + 15) / 8) <= 8193 * 8193) by nia.
  replace (7 * ((w + 15) / 8) * ((h + 15) / 8) * Z.of_nat n) with (7 * ((w + 15) / 8 * ((h + 15) / 8)) * Z.of_nat n) by ring.
  assert (0 <= Z.of_nat n <= 4) by lia. change (2 ^ 32) with 4294967296. nia.
Qed.

Lemma count_restart m r : (count_marker 221 m = 0%nat -> r = 0) -> 0 <= r < 65536 ->
  let fs := if (0 <? count_marker 221 m)%nat then [(16%nat, r)] else [] in
  fields_ok fs /\
  dec 0 (if (0 <? count_marker 221 m)%nat then Need 16 (Read 16 (fun v => Ret v)) else Ret 0) (fields_bits fs) r.
Proof.
  intros H1 H2. cbv zeta. destruct (Nat.ltb_spec 0 (count_marker 221 m)).
  - split; [apply fields_ok_cons; split; [change (2 ^ Z.of_nat 16) with 65536; lia|apply fields_ok_nil]|].
    cbn [fields_bits]. apply dec_Need; [rewrite app_length, bits_of_len; lia|]. apply dec_Read; [change (2 ^ Z.of_nat 16) with 65536; lia|]. apply dec_ret.
  - split; [apply fields_ok_nil|]. rewrite (H1 ltac:(lia)). apply dec_ret.
Qed.

(** Loop bound: markers, reset points and zero runs are all read from the section. *)
Definition steps (x : internals) : nat :=
  (length (in_markers x) + list_sum (map scan_steps (in_scans x)))%nat.

Lemma read_internals_dec w h x fs fuel : internals_ok w h x -> encode_internals w h x = Some fs -> (steps x < fuel)%nat ->
  fields_ok fs /\ dec 0 (read_internals fuel w h (length (in_ids x))) (fields_bits fs) x.
Proof.
  intros (Hm & Hr & Hr0 & Hh & Hhl & Hdht & Hs & Hq & Hql & Hi & Hil & Hp & Hz1 & Hz0 & Hw & Hht) E Hf.
  destruct Hm as (body & Em & Hbody).
  unfold encode_internals in E. cbv zeta in E.
  destruct (negb _ || negb _); [discriminate|].
  destruct (encode_huffs (in_huff x)) as [hs|] eqn:Ehs; [|discriminate]. cbn [obind] in E.
  destruct (count_marker 218 (in_markers x) =? length (in_scans x))%nat eqn:Esc; [|discriminate]. cbn [negb] in E. apply Nat.eqb_eq in Esc.
  destruct (encode_quant_heads (in_quant x)) as [qs|] eqn:Eq; [|discriminate]. cbn [obind] in E.
  set (pad := if in_zero_pad x then in_padding x else []) in *.
  assert (Epad : pad = in_padding x) by (unfold pad; destruct (in_zero_pad x); [reflexivity|symmetry; auto]).
  destruct (Z.ltb_spec (padding_bits_limit w h (length (in_ids x))) (Z.of_nat (length pad))) as [|Hlim]; [discriminate|].
  apply some_inj in E. rewrite Epad in *. clear pad Epad.
  unfold steps in Hf.
  assert (Hsf : Forall (fun s => (scan_steps s < fuel)%nat) (in_scans x)).
  { apply Forall_forall. intros s Hin. assert (scan_steps s <= list_sum (map scan_steps (in_scans x)))%nat; [|lia].
    clear -Hin. induction (in_scans x) as [|y l IH]; [destruct Hin|]. cbn [map list_sum fold_right]. destruct Hin as [->|Hin]; [unfold list_sum; cbn; lia|].
    specialize (IH Hin). unfold list_sum in *. cbn. lia. }
  assert (Hmf : (length body < fuel)%nat) by (rewrite Em, app_length in Hf; cbn in Hf; lia).
  pose proof (read_markers_dec body fuel Hmf Hbody) as D1. rewrite <- Em in D1.
  destruct (count_restart (in_markers x) (in_restart x) Hr0 Hr) as [F2 D2].
  destruct (read_huffs_dec (in_huff x) 512 hs Hh ltac:(intros C; rewrite C in Hhl; cbn in Hhl; lia) ltac:(lia) Ehs) as [F3 D3].
  destruct (read_scans_dec (in_scans x) fuel Hs Hsf) as [F4 D4].
  destruct (read_quant_heads_dec (in_quant x) qs Hq Eq) as [F5 D5].
  destruct (read_ids_dec (in_ids x) Hi Hil) as [F6 D6].
  destruct (padding_limit_small w h (length (in_ids x)) Hw Hht ltac:(lia)) as [P1 P2].
  destruct (read_padding_dec (padding_bits_limit w h (length (in_ids x))) (in_padding x) Hlim ltac:(lia) Hp) as [F7 D7].
  cbv zeta in F6, D6, F7, D7. subst fs. split.
  - apply fields_ok_app. split. { apply markers_fields_ok. rewrite Em. apply Forall_app. split; [|repeat constructor; lia]. eapply Forall_impl; [|exact Hbody]. cbv beta; intros; lia. }
    apply fields_ok_app. split; [exact F2|]. apply fields_ok_app. split; [exact F3|]. apply fields_ok_app. split; [exact F4|].
    apply fields_ok_cons. split; [change (2 ^ Z.of_nat 2) with 4; lia|]. apply fields_ok_app. split; [exact F5|].
    change ((2%nat, match_ids (in_ids x)) :: (if match_ids (in_ids x) =? 3 then map (fun y => (8%nat, y)) (in_ids x) else []) ++ encode_limited_varint (Z.of_nat (length (in_padding x))) 8 4 ++ map (fun y => (1%nat, y)) (in_padding x))
      with (((2%nat, match_ids (in_ids x)) :: (if match_ids (in_ids x) =? 3 then map (fun y => (8%nat, y)) (in_ids x) else [])) ++ encode_limited_varint (Z.of_nat (length (in_padding x))) 8 4 ++ map (fun y => (1%nat, y)) (in_padding x)).
    apply fields_ok_app. split; assumption.
  - unfold read_internals. rewrite !fields_bits_app. rewrite fields_bits_cons. rewrite fields_bits_app.
    change ((2%nat, match_ids (in_ids x)) :: (if match_ids (in_ids x) =? 3 then map (fun y => (8%nat, y)) (in_ids x) else []) ++ encode_limited_varint (Z.of_nat (length (in_padding x))) 8 4 ++ map (fun y => (1%nat, y)) (in_padding x))
      with (((2%nat, match_ids (in_ids x)) :: (if match_ids (in_ids x) =? 3 then map (fun y => (8%nat, y)) (in_ids x) else [])) ++ encode_limited_varint (Z.of_nat (length (in_padding x))) 8 4 ++ map (fun y => (1%nat, y)) (in_padding x)).
    rewrite (fields_bits_app (_ :: _)).
    eapply dec_bind; [exact D1| |lia]. cbv beta.
    eapply dec_bind; [exact D2| |lia]. cbv beta.
    eapply dec_bind; [exact D3| |lia]. cbv beta.
    rewrite Hdht, Nat.eqb_refl. cbn [negb]. rewrite Esc.
    eapply dec_bind; [exact D4| |lia]. cbv beta. rewrite app_assoc.
    eapply (dec_bind 0 1).
    + apply dec_Need; [rewrite app_length, bits_of_len; lia|]. apply dec_Read; [change (2 ^ Z.of_nat 2) with 4; lia|]. cbv beta.
      replace (Z.to_nat (Z.of_nat (length (in_quant x)) - 1) + 1)%nat with (length (in_quant x)) by lia. exact D5.
    + cbv beta. eapply dec_bind; [exact D6| |lia]. cbv beta. rewrite <- (app_nil_r (fields_bits _)).
      eapply dec_bind; [exact D7| |cbn; lia]. cbv beta.
      assert (Ez : (0 <? length (in_padding x))%nat = in_zero_pad x).
      { destruct (in_zero_pad x) eqn:Ez; [specialize (Hz1 eq_refl); destruct (in_padding x); [congruence|reflexivity]|rewrite (Hz0 eq_refl); reflexivity]. }
      rewrite Ez. destruct x; apply dec_ret.
    + rewrite fields_bits_cons, !app_length, bits_of_len. lia.
Qed.
