(** C20, C21: context maps and the histogram section; C17 for descriptions nobody checked. *)
From Verif Require Import Base BitModel BitProofs CodesModel CodesProofs ProgLogic EntropyModel HistModel HistProofs PropsCodes PropsHist CtxTables CoefModel CoefProofs ACProofs PropsCoef
  JBitModel HuffModel HStoreModel CMapModel CMapProofs1 CMapProofs2 HSecModel HSecProofs.

(** * C17: tables built from arbitrary descriptions *)

(** A prefix-code description read from arbitrary bytes, in any pieces: if it is accepted, then every lookup in the table, for
    every value of the 8 bits at hand and every value of the further bits an entry asks for, stays inside the table,
    consumes at most 15 bits and gives a symbol of the alphabet. *)
Theorem C17_accepted_tables_are_total :
  forall (arena : list (Z * Z)) (alphabet : nat) (sec : list Z) (avails : list nat) (table : list (Z * Z)) (used : nat),
    (1 <= alphabet)%nat -> Z.of_nat alphabet <= 2 ^ 15 -> Z.of_nat alphabet + 376 <= Z.of_nat (length arena) <= 65535 ->
    bytes sec -> nondecreasing 0 avails -> Forall (fun x => (x <= length sec)%nat) avails ->
    section_calls true sec (Need (77 + 5 * alphabet) (read_code arena alphabet)) br_init 0 avails = SDone table used ->
    forall v, 0 <= v < 256 -> exists e, aget table v = JOk e /\
      ((0 <= fst e <= 8 /\ 0 <= snd e < Z.of_nat alphabet) \/
       (8 < fst e <= 15 /\ forall x, 0 <= x < 2 ^ (fst e - 8) ->
          exists e2, aget table (v + snd e + x) = JOk e2 /\ 0 <= fst e2 <= fst e - 8 /\ 0 <= snd e2 < Z.of_nat alphabet)).
Proof.
  intros arena n sec avails table u H1 H2 H3 Hb Hm Hle E. pose proof (read_code_pub arena n H1 H2 H3) as P.
  assert (T : tab_total n table); [|exact T]. eapply section_pall; [exact Hb| | |exact Hm|exact Hle|exact E].
  - cbn [bok]. rewrite Nat.max_0_l. eapply pub_bok, P.
  - cbn [pall]. eapply pub_pall, P.
Qed.
Print Assumptions C17_accepted_tables_are_total.

(** Whatever bits follow, at least 15 of them, the table gives a symbol of the alphabet. *)
Theorem C17_accepted_tables_decode_every_bit_string :
  forall (arena : list (Z * Z)) (alphabet : nat) (strict strict2 : bool) (bits rest more : list bool) (table : list (Z * Z)),
    (1 <= alphabet)%nat -> Z.of_nat alphabet <= 2 ^ 15 -> Z.of_nat alphabet + 376 <= Z.of_nat (length arena) <= 65535 ->
    arun strict (read_code arena alphabet) bits = Some (table, rest) -> (15 <= length more)%nat ->
    exists s more', arun strict2 (read_sym table) more = Some (s, more') /\ 0 <= s < Z.of_nat alphabet /\ (length more <= length more' + 15)%nat.
Proof.
  intros arena n st st2 bits rest more table H1 H2 H3 E HL. pose proof (read_code_pub arena n H1 H2 H3) as P.
  assert (T : tab_total n table) by (eapply arun_pall; [eapply pub_pall, P|exact E]).
  unfold read_sym. cbn [arun]. pose proof (peek_range 8 more) as PR. change (2 ^ Z.of_nat 8) with 256 in PR. set (v := peek 8 more) in *.
  destruct (T v PR) as (e & EE & D). rewrite EE. change kRootBits with 8. destruct D as [[X1 X2]|[X1 X2]].
  - destruct (Z.ltb_spec 8 (fst e)); [lia|]. destruct (Nat.leb_spec (Z.to_nat (fst e)) (length more)); [|lia]. cbn [arun]. eexists _, _. split; [reflexivity|]. split; [exact X2|]. rewrite skipn_length. lia.
  - destruct (Z.ltb_spec 8 (fst e)); [|lia]. destruct (Nat.leb_spec 8 (length more)); [|lia]. unfold look. cbn [arun].
    pose proof (peek_range (Z.to_nat (fst e - 8)) (skipn 8 more)) as PR2. rewrite Z2Nat.id in PR2 by lia. destruct (X2 _ PR2) as (e2 & E2 & Y1 & Y2). rewrite E2.
    destruct (Nat.leb_spec (Z.to_nat (fst e2)) (length (skipn 8 more))) as [|G]; [|rewrite skipn_length in G; lia]. cbn [arun]. eexists _, _. split; [reflexivity|]. split; [exact Y2|]. rewrite !skipn_length. lia.
Qed.
Print Assumptions C17_accepted_tables_decode_every_bit_string.

(** * C20 *)

(** The number of histograms followed by the map, as in the histogram section (brunsli_decode.cc:1846-1901). *)
Definition read_map (arena : list (Z * Z)) (n : nat) : prog (nat * list Z) :=
  Need 11 (bind decode_var_len_uint8 (fun v =>
    Chk (let nh := Z.to_nat (v + 1) in
         bind (if (1 <? nh)%nat then read_context_map arena nh n else Ret (repeat 0 n)) (fun m => Ret (nh, m))))).

Lemma read_map_bok arena n : (1 <= n)%nat -> 648 <= Z.of_nat (length arena) <= 65535 -> bok 0 (read_map arena n) /\ pall (fun r => (1 <= fst r <= 256)%nat /\ map_ok (fst r) n (snd r)) (read_map arena n).
Proof.
  intros HN HA. destruct decode_var_len_uint8_total as [B P].
  assert (K : forall v, 0 <= v < 256 -> let q := bind (if (1 <? Z.to_nat (v + 1))%nat then read_context_map arena (Z.to_nat (v + 1)) n else Ret (repeat 0 n)) (fun m => Ret (Z.to_nat (v + 1), m)) in
     bok 0 q /\ pall (fun r => (1 <= fst r <= 256)%nat /\ map_ok (fst r) n (snd r)) q).
  { intros v Hv. cbv zeta. set (nh := Z.to_nat (v + 1)). assert (H1 : (1 <= nh <= 256)%nat) by lia. clearbody nh.
    assert (M : bok 0 (if (1 <? nh)%nat then read_context_map arena nh n else Ret (repeat 0 n)) /\ pall (map_ok nh n) (if (1 <? nh)%nat then read_context_map arena nh n else Ret (repeat 0 n))).
    { destruct (Nat.ltb_spec 1 nh); [apply read_context_map_total; assumption|]. split; [exact Logic.I|]. cbn [pall]. split; [apply repeat_length|].
      apply Forall_forall. intros x Hx. apply repeat_spec in Hx. lia. }
    destruct M as [B1 P1]. split.
    - eapply bok_bind_all; [exact B1|exact P1|]. intros m _. exact Logic.I.
    - eapply pall_bind; [exact P1|]. intros m Hm. cbn [pall fst snd]. auto. }
  unfold read_map. split.
  - cbn [bok]. rewrite Nat.max_0_l. eapply bok_bind_all; [exact B|exact P|]. intros v Hv. cbn [bok]. apply K, Hv.
  - cbn [pall]. eapply pall_bind; [exact P|]. intros v Hv. cbn [pall]. apply K, Hv.
Qed.

(** Every map over 1 to 256 histograms is written, without leaving an array, as fields that fit their widths; the decoder,
    fed the bytes in any pieces and with anything after the map, gets the map and the number of histograms back. *)
Theorem C20_context_map_round_trip :
  forall (cmap : list Z) (num_histograms : Z),
    1 <= num_histograms <= 256 -> Forall (fun c => 0 <= c < num_histograms) cmap -> (1 <= length cmap)%nat -> Z.of_nat (length cmap) < 2 ^ 22 ->
    exists stored, encode_cmap cmap num_histograms = JOk stored /\ fields_ok stored /\
      forall (arena : list (Z * Z)) (fs : list (nat * Z)) (avails : list nat), 648 <= Z.of_nat (length arena) <= 65535 -> small_fields fs ->
      let out := pack (fields_bits (stored ++ fs)) in
      nondecreasing 0 avails -> Forall (fun x => (x <= length out)%nat) avails -> In (length out) avails ->
      section_calls true out (then_fields (read_map arena (length cmap)) (map fst fs)) br_init 0 avails
        = SDone (Z.to_nat num_histograms, cmap, map snd fs) (length out).
Proof.
  intros cmap nh HN F L1 L2.
  assert (CM : exists f2, encode_cmap cmap nh = JOk (encode_var_len_uint8 (nh - 1) ++ f2) /\ fields_ok f2 /\
     forall arena rest, 648 <= Z.of_nat (length arena) <= 65535 ->
       arun false (if (1 <? Z.to_nat nh)%nat then read_context_map arena (Z.to_nat nh) (length cmap) else Ret (repeat 0 (length cmap))) (fields_bits f2 ++ rest) = Some (cmap, rest)).
  { destruct (Z.eq_dec nh 1) as [E1|E1].
    - exists []. unfold encode_cmap. rewrite E1. change (1 =? 1) with true. cbv iota. rewrite app_nil_r. split; [reflexivity|]. split; [constructor|]. intros arena rest _.
      change (1 <? Z.to_nat 1)%nat with false. cbv iota. cbn [arun fields_bits flat_map app].
      replace (repeat 0 (length cmap)) with cmap; [reflexivity|]. rewrite E1 in F. clear - F. induction cmap as [|x l IH]; [reflexivity|].
      pose proof (Forall_inv F). cbv beta in *. cbn [length repeat]. f_equal; [lia|]. apply IH, (Forall_inv_tail F).
    - destruct (encode_cmap_ok cmap nh ltac:(lia) F L2) as (f2 & E2 & F2 & D2).
      exists f2. split; [exact E2|]. split; [exact F2|]. intros arena rest HA. destruct (Nat.ltb_spec 1 (Z.to_nat nh)); [|lia]. apply D2, HA. }
  destruct CM as (f2 & E2 & F2 & D2). eexists. split; [exact E2|]. split; [apply fields_ok_app; split; [apply encode_var_len_uint8_ok; lia|exact F2]|].
  intros arena fs avails HA Hfs. cbv zeta. intros M1 M2 M3. set (B := fields_bits ((encode_var_len_uint8 (nh - 1) ++ f2) ++ fs)) in *.
  assert (Hok : fields_ok fs) by (eapply Forall_impl; [|exact Hfs]; cbv beta; intros x [? ?]; split; [lia|assumption]).
  rewrite section_chunking; auto using pack_bytes.
  - cbn [negb]. rewrite (asection_pack _ _ _ (Z.to_nat nh, cmap, map snd fs)); [reflexivity|]. set (pad := repeat false _). unfold B. rewrite !fields_bits_app, <- !app_assoc.
    unfold then_fields, read_map. cbn [bind arun andb]. rewrite !arun_bind, decode_var_len_uint8_dec by lia. cbn [arun]. replace (nh - 1 + 1) with nh by lia. cbv zeta. rewrite arun_bind, D2 by exact HA.
    cbn [arun]. rewrite arun_bind, arun_read_fields by exact Hok. reflexivity.
  - destruct (read_map_bok arena (length cmap) L1 HA) as [B1 P1]. eapply bok_bind_all; [exact B1|exact P1|]. intros a _. apply bok_bind; [|intros; exact Logic.I].
    apply bok_read_fields. rewrite Forall_map. eapply Forall_impl; [|exact Hfs]. cbv beta; intros y [? _]; assumption.
Qed.
Print Assumptions C20_context_map_round_trip.

(** The whole histogram section.  The floating point choices of the normalisation are arbitrary, as long as it does not give
    up (C16).  [codes] are the histograms the decoder ends up with: those the encoder codes with, wherever a symbol occurs. *)
Theorem C20_histogram_section_round_trip :
  forall (o : nat -> choices) (schemes : list Z) (cmap : list nat) (clusters : list (list Z)),
    (1 <= length schemes <= 4)%nat -> Forall (fun s => 0 <= s < 7) schemes ->
    Z.of_nat (length cmap) = 9 * (Z.of_nat (length schemes) + sumZ (map skip_of schemes)) ->
    (1 <= length clusters <= 256)%nat -> (forall c, In c cmap -> (c < length clusters)%nat) ->
    Forall (fun h => length h = 18%nat /\ Forall (fun c => 0 <= c) h) clusters ->
    (forall i h, nth_error clusters i = Some h -> (forall n, 0 <= ch_rnd (o i) n <= 1024) /\ normalize_counts (ch_rnd (o i)) (ch_up1 (o i)) (ch_up2 (o i)) h <> None) ->
    exists tables fs codes, encode_histogram_section o schemes cmap clusters = Some (tables, fs) /\ fields_ok fs /\
      length codes = length clusters /\
      (forall i h, nth_error clusters i = Some h -> (exists s, 0 < nth s h 0) -> exists cs, nth_error tables i = Some cs /\ nth_error codes i = Some cs) /\
      forall (arena : list (Z * Z)) (avails : list nat), 648 <= Z.of_nat (length arena) <= 65535 ->
        let out := pack (fields_bits fs) in
        nondecreasing 0 avails -> Forall (fun x => (x <= length out)%nat) avails -> In (length out) avails ->
        section_calls true out (read_histogram_section arena (length schemes)) br_init 0 avails = SDone (schemes, map Z.of_nat cmap, codes) (length out).
Proof.
  intros o schemes cmap clusters HS FS LC HC HM HH HN.
  assert (SO : schemes_ok (length schemes) schemes) by (split; [reflexivity|exact FS]). rewrite <- (map_len_spec _ _ SO) in LC.
  destruct (encode_section_ok o schemes cmap clusters ltac:(lia) FS ltac:(lia) HC HM HH HN) as (tables & fs & codes & E & FO & D & L1 & L2 & CH & W).
  exists tables, fs, codes. split; [exact E|]. split; [exact FO|]. split; [exact L2|]. split.
  - intros i h Hi [s Hs]. destruct (W i h Hi) as (cs & om & W1 & W2 & _). exists cs. split; [exact W1|]. rewrite W2. f_equal. unfold sent. destruct (used h) eqn:U; [|reflexivity]. exfalso.
    assert (I0 : In s (used h)) by (apply used_In; split; [|exact Hs]; destruct (Nat.lt_ge_cases s (length h)); [assumption|]; rewrite nth_overflow in Hs by assumption; lia).
    rewrite U in I0. destruct I0.
  - intros arena avails HA. cbv zeta. intros M1 M2 M3. rewrite section_chunking; auto using pack_bytes.
    + cbn [negb]. rewrite (asection_pack _ _ _ (schemes, map Z.of_nat cmap, codes)); [reflexivity|]. apply D, HA.
    + apply read_section_total; [lia|exact HA].
Qed.
Print Assumptions C20_histogram_section_round_trip.

(** * C21 *)

(** Whatever the bytes and in whatever pieces they come: every entry of an accepted map names an existing histogram. *)
Theorem C21_context_map_entries_in_range :
  forall (arena : list (Z * Z)) (n : nat) (sec : list Z) (avails : list nat) (num_histograms : nat) (cmap : list Z) (used : nat),
    (1 <= n)%nat -> 648 <= Z.of_nat (length arena) <= 65535 ->
    bytes sec -> nondecreasing 0 avails -> Forall (fun x => (x <= length sec)%nat) avails ->
    section_calls true sec (read_map arena n) br_init 0 avails = SDone (num_histograms, cmap) used ->
    (1 <= num_histograms <= 256)%nat /\ length cmap = n /\ Forall (fun c => 0 <= c < Z.of_nat num_histograms) cmap.
Proof.
  intros arena n sec avails nh cmap u HN HA Hb Hm Hle E. destruct (read_map_bok arena n HN HA) as [B P].
  pose proof (section_pall _ true sec _ avails _ _ Hb B P Hm Hle E) as (H1 & H2 & H3). auto.
Qed.
Print Assumptions C21_context_map_entries_in_range.

(** The same for the whole section, and what the DC and AC sections need from it (the hypotheses of C42): the lookup
    entropy_codes[context_map[h]] is in range for every context [h] of the components, and gives a complete table. *)
Theorem C21_histogram_section_tables :
  forall (arena : list (Z * Z)) (num_components : nat) (sec : list Z) (avails : list nat) (schemes cmap : list Z) (codes : list (list Z)) (used : nat),
    (1 <= num_components <= 4)%nat -> 648 <= Z.of_nat (length arena) <= 65535 ->
    bytes sec -> nondecreasing 0 avails -> Forall (fun x => (x <= length sec)%nat) avails ->
    section_calls true sec (read_histogram_section arena num_components) br_init 0 avails = SDone (schemes, cmap, codes) used ->
    let contexts := Z.of_nat num_components + sumZ (map skip_of schemes) in
    length schemes = num_components /\ Forall (fun s => 0 <= s < 7) schemes /\
    Z.of_nat (length cmap) = 9 * contexts /\ (1 <= length codes <= 256)%nat /\ Forall (fun c => 0 <= c < Z.of_nat (length codes)) cmap /\
    tables_ok cmap codes (9 * contexts).
Proof.
  intros arena nc sec avails schemes cmap codes u HN HA Hb Hm Hle E. destruct (read_section_total arena nc ltac:(lia) HA) as [B P].
  pose proof (section_pall _ true sec _ avails _ _ Hb B P Hm Hle E) as S0. pose proof S0 as ((L & F) & H2 & H3 & H4 & H5). cbv zeta.
  assert (SO : schemes_ok nc schemes) by (split; assumption). rewrite <- (map_len_spec _ _ SO).
  split; [exact L|]. split; [exact F|]. split; [rewrite H2; reflexivity|]. split; [exact H3|]. split; [exact H4|]. eapply section_tables; [exact S0|lia].
Qed.
Print Assumptions C21_histogram_section_tables.

(** * Non-vacuity *)

Definition ex_map : list Z := repeat 0 40 ++ [1; 0; 1; 2; 2; 2; 3; 0; 0] ++ repeat 3 20 ++ [4; 1; 4; 1].
Definition ex_out : list Z := match encode_cmap ex_map 5 with JOk f => pack (fields_bits f) | _ => [] end.

Example C20_case : (Forall (fun c => 0 <= c < 5) ex_map) /\ ex_out <> [] /\
  match section_calls true ex_out (read_map (repeat (7, 7) 648) (length ex_map)) br_init 0 [1; 3; 3; length ex_out]%nat with
  | SDone (nh, m) used => ((nh =? 5) && (used =? length ex_out))%nat && forallb (fun p => fst p =? snd p) (combine m ex_map) && (length m =? length ex_map)%nat
  | _ => false
  end = true.
Proof.
  split; [|split; [vm_compute; discriminate|vm_compute; reflexivity]]. assert (E : forallb (fun c => (0 <=? c) && (c <? 5)) ex_map = true) by reflexivity.
  apply Forall_forall. intros c Hc. rewrite forallb_forall in E. specialize (E c Hc). apply andb_true_iff in E. lia.
Qed.

(** A section of one component with scheme 0 and two histograms. *)
Definition ex_sec_map : list nat := (repeat 0 9 ++ repeat 1 50 ++ repeat 0 22)%nat.
Definition ex_sec_hists : list (list Z) := [[5; 0; 0; 0; 0; 0; 0; 0; 0; 0; 0; 0; 0; 0; 0; 0; 0; 0]; [0; 3; 0; 0; 9; 0; 0; 0; 0; 0; 0; 0; 0; 0; 0; 0; 0; 0]].
Definition ex_choices : nat -> choices := fun _ => mkChoices (fun n => if (n =? 1)%nat then 256 else 768) (fun _ => false) (fun _ => false).
Definition ex_sec : list Z := match encode_histogram_section ex_choices [0] ex_sec_map ex_sec_hists with Some (_, f) => pack (fields_bits f) | None => [] end.
Example C21_case : ex_sec <> [] /\ (Z.of_nat (length ex_sec_map) = 9 * (1 + sumZ (map skip_of [0]))) /\
  match section_calls true ex_sec (read_histogram_section (repeat (7, 7) 648) 1) br_init 0 [1; length ex_sec]%nat with
  | SDone (s, m, c) used => (length m =? 81)%nat && (length c =? 2)%nat && (used =? length ex_sec)%nat && (nth 1 (nth 1 c []) 0 + nth 4 (nth 1 c []) 0 =? 1024)
  | _ => false
  end = true.
Proof. split; [vm_compute; discriminate|]. split; vm_compute; reflexivity. Qed.
(** Corrupted bytes are rejected, or accepted with a map in range. *)
Example C21_case_rejected : section_calls true [255; 255; 255; 255; 255] (read_histogram_section (repeat (7, 7) 648) 1) br_init 0 [5]%nat = SFail.
Proof. vm_compute. reflexivity. Qed.
(** A description accepted by C17's theorems. *)
Example C17_case_total : exists table, section_calls true [1; 0] (Need (77 + 5 * 4) (read_code (repeat (7, 7) 400) 4)) br_init 0 [2%nat] = SDone table 1.
Proof. eexists. vm_compute. reflexivity. Qed.
