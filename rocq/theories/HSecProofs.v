(** The histogram section. *)
From Verif Require Import Base BitModel BitProofs CodesModel CodesProofs ProgLogic EntropyModel EntropyProofs HistModel HistProofs PropsHist CtxTables CoefModel CoefProofs ACProofs PropsCoef
  JBitModel HuffModel HStoreModel CMapModel CMapProofs1 CMapProofs2 HSecModel.

(** * What the decoder accepts *)

Definition schemes_ok (n : nat) (l : list Z) : Prop := length l = n /\ Forall (fun s => 0 <= s < 7) l.

Lemma read_schemes_pub n : pub (3 * n) (schemes_ok n) (read_schemes n).
Proof.
  induction n as [|n IH]; [cbn [read_schemes pub]; split; [reflexivity|constructor]|]. cbn [read_schemes]. replace (3 * S n)%nat with (3 + 3 * n)%nat by lia.
  apply pub_Read; [lia|]. intros s Hs. destruct (Z.leb_spec 7 s); [exact Logic.I|]. rewrite <- (Nat.add_0_r (3 * n)). eapply pub_bind; [exact IH|].
  intros r [L F]. cbn [pub]. split; [cbn [length]; lia|]. constructor; [lia|exact F].
Qed.

Lemma ans_init_complete h : complete_histogram h -> exists t, ans_init h (repeat (0, 0, 0) 1024) = Some (t, true).
Proof.
  intros (C1 & C2 & C3). assert (N : Forall (fun c => 0 <= c) h) by (eapply Forall_impl; [|exact C2]; cbv beta; intros; lia).
  pose proof (C14_ans_table_init h (repeat (0, 0, 0) 1024) N (repeat_length _ _)) as T. unfold kAnsTab in C3.
  destruct (ans_init h _) as [[t []]|]; [exists t; reflexivity|lia|lia].
Qed.

Lemma read_codes_total n : forall b, bok b (read_codes n) /\ pall (fun l => length l = n /\ Forall complete_histogram l) (read_codes n).
Proof.
  induction n as [|n IH]; intros b; [cbn; repeat split; constructor|]. cbn [read_codes bok pall].
  assert (K : forall h, complete_histogram h -> bok 0 (match ans_init h (repeat (0, 0, 0) 1024) with Some (_, true) => bind (read_codes n) (fun r => Ret (h :: r)) | _ => Fail end)
    /\ pall (fun l => length l = S n /\ Forall complete_histogram l) (match ans_init h (repeat (0, 0, 0) 1024) with Some (_, true) => bind (read_codes n) (fun r => Ret (h :: r)) | _ => Fail end)).
  { intros h C. destruct (ans_init_complete h C) as (t & ->). destruct (IH 0%nat) as [B P]. split.
    - eapply bok_bind_all; [exact B|exact P|]. intros a _. exact Logic.I.
    - eapply pall_bind; [exact P|]. intros r [L F]. cbn [pall]. split; [cbn [length]; lia|constructor; assumption]. }
  split.
  - eapply bok_mono with (b := 207%nat); [lia|]. change 207%nat with (207 + 0)%nat. eapply bok_bind_pub; [exact read_histogram_pub|]. intros h C. apply K, C.
  - eapply pall_bind; [eapply pub_pall; exact read_histogram_pub|]. intros h C. apply K, C.
Qed.

Lemma decode_var_len_uint8_total : bok 11 decode_var_len_uint8 /\ pall (fun v => 0 <= v < 256) decode_var_len_uint8.
Proof.
  split; [exact bok_decode_var_len_uint8|]. unfold decode_var_len_uint8, Read. cbn [pall]. intros c Hc. destruct (c =? 0); [cbn [pall]; lia|]. cbn [pall]. intros nb Hnb.
  change (2 ^ Z.of_nat 3) with 8 in Hnb. destruct (nb =? 0); [cbn [pall]; lia|]. cbn [pall]. intros x Hx. rewrite Z2Nat.id in Hx by lia.
  assert (2 ^ nb <= 2 ^ 7) by (apply Z.pow_le_mono_r; lia). assert (0 < 2 ^ nb) by (apply Z.pow_pos_nonneg; lia). change (2 ^ 7) with 128 in *.
  rewrite ?Z.shiftl_mul_pow2, ?Z.mul_1_l by lia. lia.
Qed.

(** Everything the later sections rely on. *)
Definition section_ok (nc : nat) (r : list Z * list Z * list (list Z)) : Prop :=
  let '(schemes, cmap, codes) := r in
  schemes_ok nc schemes /\ length cmap = map_len schemes /\ (1 <= length codes <= 256)%nat /\
  Forall (fun c => 0 <= c < Z.of_nat (length codes)) cmap /\ Forall complete_histogram codes.

Lemma map_len_pos schemes : (1 <= length schemes)%nat -> (1 <= map_len schemes)%nat.
Proof. intros H. unfold map_len, contexts_of. lia. Qed.

Lemma read_section_total arena nc : (1 <= nc)%nat -> 648 <= Z.of_nat (length arena) <= 65535 ->
  bok 0 (read_histogram_section arena nc) /\ pall (section_ok nc) (read_histogram_section arena nc).
Proof.
  intros HN HA. unfold read_histogram_section.
  assert (K1 : forall schemes cmap nh, schemes_ok nc schemes -> (1 <= nh <= 256)%nat -> length cmap = map_len schemes -> Forall (fun c => 0 <= c < Z.of_nat nh) cmap ->
     bok 0 (bind (read_codes nh) (fun codes => Chk (Ret (schemes, cmap, codes)))) /\ pall (section_ok nc) (bind (read_codes nh) (fun codes => Chk (Ret (schemes, cmap, codes))))).
  { intros schemes cmap nh HS HH HL HF. destruct (read_codes_total nh 0) as [B P]. split.
    - eapply bok_bind_all; [exact B|exact P|]. intros a _. exact Logic.I.
    - eapply pall_bind; [exact P|]. intros codes [L F]. cbn [pall section_ok]. rewrite L. auto. }
  assert (K2 : forall schemes nh, schemes_ok nc schemes -> (1 <= nh <= 256)%nat ->
     let q := bind (if (1 <? nh)%nat then read_context_map arena nh (map_len schemes) else Ret (repeat 0 (map_len schemes))) (fun cmap =>
             bind (read_codes nh) (fun codes => Chk (Ret (schemes, cmap, codes)))) in bok 0 q /\ pall (section_ok nc) q).
  { intros schemes nh HS HH. cbv zeta. assert (P1 : (1 <= map_len schemes)%nat) by (apply map_len_pos; destruct HS; lia).
    assert (M : bok 0 (if (1 <? nh)%nat then read_context_map arena nh (map_len schemes) else Ret (repeat 0 (map_len schemes)))
       /\ pall (map_ok nh (map_len schemes)) (if (1 <? nh)%nat then read_context_map arena nh (map_len schemes) else Ret (repeat 0 (map_len schemes)))).
    { destruct (Nat.ltb_spec 1 nh); [apply read_context_map_total; assumption|]. split; [exact Logic.I|]. cbn [pall]. split; [apply repeat_length|].
      apply Forall_forall. intros x Hx. apply repeat_spec in Hx. lia. }
    destruct M as [B P]. split.
    - eapply bok_bind_all; [exact B|exact P|]. intros m [L F]. apply K1; assumption.
    - eapply pall_bind; [exact P|]. intros m [L F]. apply K1; assumption. }
  assert (K3 : forall schemes, schemes_ok nc schemes ->
     let q := bind decode_var_len_uint8 (fun v =>
        Chk (let nh := Z.to_nat (v + 1) in
             bind (if (1 <? nh)%nat then read_context_map arena nh (map_len schemes) else Ret (repeat 0 (map_len schemes))) (fun cmap =>
             bind (read_codes nh) (fun codes => Chk (Ret (schemes, cmap, codes)))))) in bok 11 q /\ pall (section_ok nc) q).
  { intros schemes HS. cbv zeta. destruct decode_var_len_uint8_total as [B P]. split.
    - eapply bok_bind_all; [exact B|exact P|]. intros v Hv. cbv beta in Hv. cbn [bok]. eapply bok_mono; [|apply K2; [exact HS|lia]]. lia.
    - eapply pall_bind; [exact P|]. intros v Hv. cbv beta in Hv. cbn [pall]. apply K2; [exact HS|lia]. }
  split.
  - cbn [bok]. rewrite Nat.max_0_l. rewrite <- (Nat.add_0_r (3 * nc)). eapply bok_bind_pub; [apply read_schemes_pub|]. intros schemes HS. cbn [bok]. rewrite Nat.max_0_l. apply K3, HS.
  - cbn [pall]. eapply pall_bind; [eapply pub_pall, read_schemes_pub|]. intros schemes HS. cbn [pall]. apply K3, HS.
Qed.

Lemma scheme_size_skip s : 0 <= s < 7 -> Z.of_nat (scheme_size s) = skip_of s.
Proof. intros H. unfold scheme_size, skip_of. rewrite Z2Nat.id; [reflexivity|]. pose proof (skip_pos s H) as P. unfold skip_of in P. lia. Qed.
Lemma map_len_spec nc schemes : schemes_ok nc schemes -> Z.of_nat (map_len schemes) = 9 * (Z.of_nat nc + sumZ (map skip_of schemes)).
Proof.
  intros [L F]. unfold map_len, contexts_of. rewrite L. assert (E : Z.of_nat (fold_right Nat.add 0%nat (map scheme_size schemes)) = sumZ (map skip_of schemes)).
  { clear L. induction schemes as [|s r IH]; [reflexivity|]. cbn [map fold_right]. change (sumZ (skip_of s :: map skip_of r)) with (skip_of s + sumZ (map skip_of r)).
    rewrite Nat2Z.inj_add, IH by (eapply Forall_inv_tail, F). rewrite scheme_size_skip by (pose proof (Forall_inv F); assumption). reflexivity. }
  lia.
Qed.

(** The tables are those the DC and AC sections need (C42). *)
Lemma section_tables nc schemes cmap codes lim : section_ok nc (schemes, cmap, codes) -> lim <= Z.of_nat (map_len schemes) -> tables_ok cmap codes lim.
Proof.
  intros (S1 & L & HC & F & FC) HL h Hh. destruct (nth_error cmap (Z.to_nat h)) as [c|] eqn:E; [|apply nth_error_None in E; lia].
  pose proof (nth_error_In _ _ E) as I1. rewrite Forall_forall in F. specialize (F c I1). cbv beta in F.
  destruct (nth_error codes (Z.to_nat c)) as [t|] eqn:E2; [|apply nth_error_None in E2; lia].
  pose proof (nth_error_In _ _ E2) as I2. rewrite Forall_forall in FC. destruct (FC t I2) as (C1 & C2 & C3).
  exists t. split; [|split; [split; [eapply Forall_impl; [|exact C2]; cbv beta; intros; lia|exact C3]|exact C1]].
  unfold table_of, zget, obind. destruct (Z.ltb_spec h 0); [lia|]. rewrite E. destruct (Z.ltb_spec c 0); [lia|]. exact E2.
Qed.

(** * What the encoder writes *)

(** What the decoder makes of one histogram: an unused one is sent as a histogram of symbol 0. *)
Definition sent (h cs : list Z) : list Z := match used h with [] => upd (repeat 0 18) 0 1024 | _ => cs end.

Definition norm_ok (o : choices) (h : list Z) : Prop := (forall n, 0 <= ch_rnd o n <= 1024) /\ normalize_counts (ch_rnd o) (ch_up1 o) (ch_up2 o) h <> None.

Lemma store_histogram_any o h : hist_ok h -> norm_ok o h ->
  exists cs om fs, store_histogram (ch_rnd o) (ch_up1 o) (ch_up2 o) h = Some (cs, fs) /\ normalize_counts (ch_rnd o) (ch_up1 o) (ch_up2 o) h = Some (cs, om) /\
    fields_ok fs /\ dec 0 read_histogram (fields_bits fs) (sent h cs).
Proof.
  intros HH [HR HN]. destruct (normalize_counts _ _ _ h) as [[cs om]|] eqn:E; [|congruence]. destruct (used h) as [|u us] eqn:U.
  - unfold normalize_counts in E. rewrite U in E. injection E as <- <-. exists h, 0%nat, [(1%nat, 1); (6%nat, 0)].
    unfold store_histogram, normalize_counts, obind. rewrite U. split; [reflexivity|]. split; [reflexivity|]. split.
    { apply fields_ok_cons; split; [cbn [fst snd]; split; [lia|cbn; lia]|]. apply fields_ok_cons; split; [cbn [fst snd]; split; [lia|cbn; lia]|]. constructor. }
    unfold sent. rewrite U. change (fields_bits [(1%nat, 1); (6%nat, 0)]) with (bits_of 1 1 ++ bits_of 1 0 ++ bits_of 5 0 ++ []). unfold read_histogram.
    apply dec_Read; [cbn; lia|]. change (1 =? 1) with true. cbv iota. apply dec_Read; [cbn; lia|]. apply dec_Read; [cbn; lia|]. change (0 =? 0) with true. cbv iota. apply dec_Chk, dec_ret.
  - destruct (store_histogram_dec _ _ _ h cs om HH HR ltac:(rewrite U; discriminate) E) as (fs & E1 & F & D). exists cs, om, fs. split; [exact E1|]. split; [reflexivity|]. split; [exact F|].
    unfold sent. rewrite U. exact D.
Qed.

Lemma sent_complete o h cs om : hist_ok h -> norm_ok o h -> normalize_counts (ch_rnd o) (ch_up1 o) (ch_up2 o) h = Some (cs, om) -> complete_histogram (sent h cs).
Proof.
  intros HH [HR _] E. unfold sent. destruct (used h) as [|u us] eqn:U.
  - split; [reflexivity|]. split; [|reflexivity]. apply Forall_forall. intros x Hx. cbn in Hx. unfold kAnsTab. lia.
  - destruct (normalize_spec _ _ _ h cs om HH HR ltac:(rewrite U; discriminate) E) as (A1 & A2 & A3 & _). split; [exact A1|]. split; [|exact A3].
    apply Forall_forall. intros x Hx. rewrite Forall_forall in A2. split; [apply A2, Hx|]. rewrite <- A3. clear - A2 Hx. induction cs as [|y cs IH]; [destruct Hx|].
    change (sumZ (y :: cs)) with (y + sumZ cs). assert (0 <= sumZ cs) by (apply sumZ_nonneg, Forall_forall; intros z Hz; apply A2; right; exact Hz).
    destruct Hx as [->|Hx]; [lia|]. pose proof (A2 y (or_introl eq_refl)). assert (x <= sumZ cs) by (apply IH; [intros z Hz; apply A2; right; exact Hz|exact Hx]). lia.
Qed.

Lemma store_codes_ok o : forall clusters k, Forall hist_ok clusters -> (forall i h, nth_error clusters i = Some h -> norm_ok (o (k + i)%nat) h) ->
  exists tables fs codes, store_codes o k clusters = Some (tables, fs) /\ fields_ok fs /\ (forall rest, arun false (read_codes (length clusters)) (fields_bits fs ++ rest) = Some (codes, rest)) /\
    length tables = length clusters /\ length codes = length clusters /\ Forall complete_histogram codes /\
    forall i h, nth_error clusters i = Some h -> exists cs om, nth_error tables i = Some cs /\ nth_error codes i = Some (sent h cs) /\
      normalize_counts (ch_rnd (o (k + i)%nat)) (ch_up1 (o (k + i)%nat)) (ch_up2 (o (k + i)%nat)) h = Some (cs, om).
Proof.
  induction clusters as [|h r IH]; intros k F N.
  - exists [], [], []. split; [reflexivity|]. split; [constructor|]. split; [reflexivity|]. split; [reflexivity|]. split; [reflexivity|]. split; [constructor|]. intros [|i] h E; discriminate.
  - pose proof (N 0%nat h eq_refl) as N0. rewrite Nat.add_0_r in N0. destruct (store_histogram_any (o k) h (Forall_inv F) N0) as (cs & om & f1 & E1 & E2 & F1 & D1).
    destruct (IH (S k) (Forall_inv_tail F)) as (tables & fs & codes & E3 & F3 & D3 & L1 & L2 & CH & W).
    { intros i h' Hi. replace (S k + i)%nat with (k + S i)%nat by lia. apply N. exact Hi. }
    exists (cs :: tables), (f1 ++ fs), (sent h cs :: codes). cbn [store_codes]. rewrite E1. unfold obind at 1. rewrite E3. unfold obind. cbn [fst snd].
    split; [reflexivity|]. split; [apply fields_ok_app; split; assumption|]. pose proof (sent_complete (o k) h cs om (Forall_inv F) N0 E2) as C0. split.
    { intros rest. rewrite fields_bits_app, <- app_assoc. cbn [length read_codes]. cbn [arun andb]. rewrite arun_bind, D1 by lia. destruct (ans_init_complete _ C0) as (t & ->).
      rewrite arun_bind, D3. reflexivity. }
    split; [cbn [length]; lia|]. split; [cbn [length]; lia|]. split; [constructor; assumption|]. intros i h' Hi. destruct i as [|i]; cbn [nth_error] in *.
    + injection Hi as <-. rewrite Nat.add_0_r. exists cs, om. auto.
    + destruct (W i h' Hi) as (c' & om' & H1 & H2 & H3). exists c', om'. replace (k + S i)%nat with (S k + i)%nat by lia. auto.
Qed.

Lemma read_schemes_dec schemes : Forall (fun s => 0 <= s < 7) schemes -> fields_ok (map (fun s => (3%nat, s)) schemes) /\ dec 0 (read_schemes (length schemes)) (fields_bits (map (fun s => (3%nat, s)) schemes)) schemes.
Proof.
  induction schemes as [|s r IH]; intros F; [split; [constructor|apply dec_ret]|]. pose proof (Forall_inv F) as Hs. cbv beta in Hs. destruct (IH (Forall_inv_tail F)) as [FO D]. cbn [map length read_schemes]. split.
  - apply fields_ok_cons; split; [cbn [fst snd]; split; [lia|change (2 ^ Z.of_nat 3) with 8; lia]|exact FO].
  - change (fields_bits ((3%nat, s) :: map (fun s0 => (3%nat, s0)) r)) with (bits_of 3 s ++ fields_bits (map (fun s0 => (3%nat, s0)) r)). apply dec_Read; [change (2 ^ Z.of_nat 3) with 8; lia|].
    destruct (Z.leb_spec 7 s); [lia|]. rewrite <- (app_nil_r (fields_bits _)). eapply dec_bind; [exact D|apply dec_ret|cbn; lia].
Qed.

Lemma scheme_le s : (scheme_size s <= 412)%nat.
Proof.
  unfold scheme_size. generalize (Z.to_nat s). intros n. do 7 (destruct n as [|n]; [cbn; lia|]). destruct n; cbn; lia.
Qed.
Lemma map_len_bound schemes : (length schemes <= 256)%nat -> Z.of_nat (map_len schemes) < 2 ^ 22.
Proof.
  intros H. unfold map_len, contexts_of. assert (fold_right Nat.add 0 (map scheme_size schemes) <= 412 * length schemes)%nat.
  { clear H. induction schemes as [|s r IH]; [cbn; lia|]. cbn [map fold_right length]. pose proof (scheme_le s). lia. }
  lia.
Qed.

Lemma encode_section_ok o schemes cmap clusters : (1 <= length schemes <= 256)%nat -> Forall (fun s => 0 <= s < 7) schemes ->
  length cmap = map_len schemes -> (1 <= length clusters <= 256)%nat -> (forall c, In c cmap -> (c < length clusters)%nat) ->
  Forall hist_ok clusters -> (forall i h, nth_error clusters i = Some h -> norm_ok (o i) h) ->
  exists tables fs codes, encode_histogram_section o schemes cmap clusters = Some (tables, fs) /\ fields_ok fs /\
    (forall arena rest, 648 <= Z.of_nat (length arena) <= 65535 ->
       arun false (read_histogram_section arena (length schemes)) (fields_bits fs ++ rest) = Some ((schemes, map Z.of_nat cmap, codes), rest)) /\
    length tables = length clusters /\ length codes = length clusters /\ Forall complete_histogram codes /\
    forall i h, nth_error clusters i = Some h -> exists cs om, nth_error tables i = Some cs /\ nth_error codes i = Some (sent h cs) /\
      normalize_counts (ch_rnd (o i)) (ch_up1 (o i)) (ch_up2 (o i)) h = Some (cs, om).
Proof.
  intros HS FS LC HC HM HH HN. destruct (store_codes_ok o clusters 0 HH HN) as (tables & fs & codes & E & FO & D & L1 & L2 & CH & W).
  destruct (read_schemes_dec schemes FS) as [FO1 D1]. set (nh := Z.of_nat (length clusters)).
  assert (MF : Forall (fun c => 0 <= c < nh) (map Z.of_nat cmap)).
  { rewrite Forall_map. apply Forall_forall. intros c Hc. specialize (HM c Hc). unfold nh. lia. }
  assert (HNH : 1 <= nh <= 256) by (unfold nh; lia).
  assert (ML : length (map Z.of_nat cmap) = map_len schemes) by (rewrite map_length; exact LC).
  assert (CM : exists f2, encode_cmap (map Z.of_nat cmap) nh = JOk (encode_var_len_uint8 (nh - 1) ++ f2) /\ fields_ok f2 /\
     forall arena rest, 648 <= Z.of_nat (length arena) <= 65535 ->
       arun false (if (1 <? Z.to_nat nh)%nat then read_context_map arena (Z.to_nat nh) (map_len schemes) else Ret (repeat 0 (map_len schemes))) (fields_bits f2 ++ rest) = Some (map Z.of_nat cmap, rest)).
  { destruct (Z.eq_dec nh 1) as [E1|E1].
    - exists []. unfold encode_cmap. rewrite E1. change (1 =? 1) with true. cbv iota. rewrite app_nil_r. split; [reflexivity|]. split; [constructor|]. intros arena rest _.
      change (1 <? Z.to_nat 1)%nat with false. cbv iota. cbn [arun fields_bits flat_map app]. rewrite <- ML.
      replace (repeat 0 (length (map Z.of_nat cmap))) with (map Z.of_nat cmap); [reflexivity|]. rewrite E1 in MF. clear - MF. induction (map Z.of_nat cmap) as [|x l IH]; [reflexivity|].
      pose proof (Forall_inv MF). cbv beta in *. cbn [length repeat]. f_equal; [lia|]. apply IH, (Forall_inv_tail MF).
    - destruct (encode_cmap_ok (map Z.of_nat cmap) nh ltac:(lia) MF) as (f2 & E2 & F2 & D2); [rewrite ML; apply map_len_bound; lia|].
      exists f2. split; [exact E2|]. split; [exact F2|]. intros arena rest HA. destruct (Nat.ltb_spec 1 (Z.to_nat nh)); [|lia]. rewrite <- ML. apply D2, HA. }
  destruct CM as (f2 & E2 & F2 & D2). exists tables, (map (fun s => (3%nat, s)) schemes ++ (encode_var_len_uint8 (nh - 1) ++ f2) ++ fs), codes.
  unfold encode_histogram_section. fold nh. rewrite E2, E. unfold obind. cbn [fst snd]. split; [reflexivity|].
  split. { apply fields_ok_app; split; [exact FO1|]. apply fields_ok_app; split; [apply fields_ok_app; split; [apply encode_var_len_uint8_ok; lia|exact F2]|exact FO]. }
  split; [|auto]. intros arena rest HA. unfold read_histogram_section. rewrite !fields_bits_app, <- !app_assoc. cbn [arun andb]. rewrite arun_bind, D1 by lia. cbn [arun andb].
  rewrite arun_bind, decode_var_len_uint8_dec by lia. cbn [arun]. replace (nh - 1 + 1) with nh by lia. cbv zeta. rewrite arun_bind, D2 by exact HA.
  rewrite arun_bind. unfold nh at 1. rewrite Nat2Z.id, D. reflexivity.
Qed.
