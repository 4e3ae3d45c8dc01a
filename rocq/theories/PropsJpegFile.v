(** C46, C47 and C50: marker segments and whole JPEG files. *)
From Coq Require Import ZArith List Bool Lia.
From Verif Require Import Base JpegModel LehmerModel JBitModel JWriteProofs JReadProofs JHuffModel JHuffProofs JHuffPair JScanModel
  JScanProofs6 JScanProofs8 PropsJpegScan JSegModel JSegProofs1 JSegProofs2 JFileModel JFileProofs.
Import ListNotations.
Local Open Scope Z_scope.

(** * Specification *)

(** Position [pos] is right behind the two bytes of marker [m]. *)
Definition behind (data : list Z) (pos m : Z) : Prop :=
  2 <= pos /\ aget data (pos - 2) = JOk 255 /\ aget data (pos - 1) = JOk m.

(** A component of the file as read from the frame header, and in the result, where the number
    of its quantization table was replaced by a position in the list of tables. *)
Definition refers (quant : list qtable) (c c' : component) : Prop :=
  c_id c' = c_id c /\ c_h c' = c_h c /\ c_v c' = c_v c
  /\ exists q, aget quant (c_quant c') = JOk q /\ q_index q = c_quant c.

Definition no_ub {A} (m : jres A) : Prop := m <> JUB.

Lemma jpost_no_ub {A} (m : jres A) P : jpost m P -> no_ub m.
Proof. destruct m; cbn [jpost]; [discriminate|discriminate|contradiction]. Qed.

Lemma piece_of data pos out pos' : sl data (pos - 2) out -> pos' = pos - 2 + Z.of_nat (length out) -> out = piece data (pos - 2) pos'.
Proof. intros S ->. symmetry. apply piece_sl. exact S. Qed.

(** * Marker segments *)

(** Frame header. *)
Theorem C47_frame_header data pos m full j : bytes data -> behind data pos m -> 1 <= j_max_h j -> 1 <= j_max_v j ->
  no_ub (read_sof full data pos j)
  /\ forall j' pos', read_sof full data pos j = JOk (j', pos') ->
     forall J, j_width J = j_width j' -> j_height J = j_height j' -> Forall2 (refers (j_quant J)) (j_comps j') (j_comps J) ->
     write_sof J m = JOk (piece data (pos - 2) pos').
Proof.
  intros Y (H1 & H2 & H3) Hh Hv. pose proof (read_sof_ok full data pos j Y H1 Hh Hv) as K. split; [exact (jpost_no_ub _ _ K)|].
  intros j' pos' E J E1 E2 F. rewrite E in K. destruct K as (_ & _ & w & h & mh & mv & comps & EJ & _ & WR). cbn [fst snd] in *. subst j'.
  destruct (WR m J H2 H3 E1 E2 F) as (out & EW & S1 & S2). rewrite EW. f_equal. exact (piece_of _ _ _ _ S1 S2).
Qed.
Print Assumptions C47_frame_header.

(** Scan header: [resets] and [runs] are what the scan data add to it. *)
Theorem C47_scan_header data pos j : bytes data -> behind data pos 218 ->
  no_ub (read_sos data pos j)
  /\ forall si pos', read_sos data pos j = JOk (si, pos') ->
     forall J resets runs, map c_id (j_comps J) = map c_id (j_comps j) ->
     write_sos J (mkSI (si_ss si) (si_se si) (si_ah si) (si_al si) (si_comps si) resets runs) = JOk (piece data (pos - 2) pos').
Proof.
  intros Y (H1 & H2 & H3). pose proof (read_sos_ok data pos j Y H1) as K. split; [exact (jpost_no_ub _ _ K)|].
  intros si pos' E J rs zr EI. rewrite E in K. destruct K as (_ & _ & _ & _ & _ & _ & _ & WR). cbn [fst snd] in *.
  destruct (WR J rs zr H2 H3 EI) as (out & EW & S1 & S2). rewrite EW. f_equal. exact (piece_of _ _ _ _ S1 S2).
Qed.
Print Assumptions C47_scan_header.

(** Huffman tables: the new codes are appended; the writer, at the first of them, writes the
    segment and goes on behind the last of them.  After it, its codes again fit the reader's tables. *)
Definition four_slots (luts : list (list (Z * Z))) (tabs : list codetab) : Prop :=
  length luts = 4%nat /\ Forall2 slot_pair luts tabs.

Lemma tabs4_of luts tabs : four_slots luts tabs -> tabs4 luts tabs /\ luts4 luts.
Proof.
  intros [L F]. assert (L2 : length tabs = 4%nat) by (rewrite <- L; symmetry; exact (Forall2_len _ _ _ F)).
  split; [split; [exact L2|]|].
  - intros i Hi. assert (X : (Z.to_nat i < length luts)%nat) by lia.
    exists (nth (Z.to_nat i) luts []), (nth (Z.to_nat i) tabs ([], [])).
    split; [apply aget_Some; split; [lia|]; apply nth_error_nth'; lia|]. split; [apply aget_Some; split; [lia|]; apply nth_error_nth'; lia|].
    apply slot_pair_ok. revert X. generalize (Z.to_nat i). clear - F. induction F as [|a b la lb Hab F IH]; intros n X; [cbn [length] in X; lia|].
    destruct n; cbn [nth]; [exact Hab|]. apply IH. cbn [length] in X. lia.
  - split; [exact L|]. clear - F. induction F as [|a b la lb Hab F IH]; constructor; [|exact IH]. destruct (slot_pair_ok _ _ Hab) as [[S _] _]. exact S.
Qed.

Theorem C47_huffman_tables data pos full t : bytes data -> behind data pos 196 -> forall w,
  four_slots (tb_dc t) (wt_dc w) -> four_slots (tb_ac t) (wt_ac w) ->
  no_ub (read_dht full data pos t)
  /\ forall t' pos', read_dht full data pos t = JOk (t', pos') ->
     exists hs, tb_huff t' = tb_huff t ++ hs
       /\ (full = true -> forall rest, exists w', write_dht (hs ++ rest) w = JOk (piece data (pos - 2) pos', (rest, w')) /\ paired t' w').
Proof.
  intros Y (H1 & H2 & H3) w D A. destruct (tabs4_of _ _ D) as [D1 D2]. destruct (tabs4_of _ _ A) as [A1 A2].
  pose proof (read_dht_ok full data pos t Y H1 (conj D2 A2)) as K. split; [exact (jpost_no_ub _ _ K)|].
  intros t' pos' E. rewrite E in K. destruct K as (_ & _ & hs & EH & WR). cbn [fst snd] in *. exists hs. split; [exact EH|]. intros Fu rest.
  destruct (WR Fu H2 H3 w rest (conj D1 A1)) as (out & w' & EW & PW & S1 & S2). exists w'. split; [|exact PW]. rewrite EW. f_equal. f_equal. exact (piece_of _ _ _ _ S1 S2).
Qed.
Print Assumptions C47_huffman_tables.

(** Quantization tables. *)
Theorem C47_quant_tables data pos q : bytes data -> behind data pos 219 -> (length q <= 4)%nat ->
  no_ub (read_dqt data pos q)
  /\ forall q' pos', read_dqt data pos q = JOk (q', pos') ->
     exists qs, q' = q ++ qs /\ (length q' <= 4)%nat /\ forall rest, write_dqt (qs ++ rest) = JOk (piece data (pos - 2) pos', rest).
Proof.
  intros Y (H1 & H2 & H3) L. pose proof (read_dqt_ok data pos q Y H1 L) as K. split; [exact (jpost_no_ub _ _ K)|].
  intros q' pos' E. rewrite E in K. destruct K as (_ & L' & qs & EQ & _ & WR). cbn [fst snd] in *. exists qs. split; [exact EQ|]. split; [exact L'|]. intros rest.
  destruct (WR H2 H3 rest) as (out & EW & S1 & S2). rewrite EW. f_equal. f_equal. exact (piece_of _ _ _ _ S1 S2).
Qed.
Print Assumptions C47_quant_tables.

(** Restart interval. *)
Theorem C47_restart_interval data pos found : bytes data -> behind data pos 221 ->
  no_ub (read_dri data pos found)
  /\ forall r pos', read_dri data pos found = JOk (r, pos') -> forall J, j_restart J = r -> write_dri J = piece data (pos - 2) pos'.
Proof.
  intros Y (H1 & H2 & H3). pose proof (read_dri_ok data pos found Y H1) as K. split; [exact (jpost_no_ub _ _ K)|].
  intros r pos' E J EJ. rewrite E in K. destruct K as (_ & P & _ & _ & WR). cbn [fst snd] in *.
  apply piece_of; [exact (WR H2 H3 J EJ)|]. cbn [write_dri length]. lia.
Qed.
Print Assumptions C47_restart_interval.

(** Application data and comments: the stored string starts with the marker. *)
Theorem C47_stored_segments data pos m : bytes data -> behind data pos m ->
  no_ub (read_blob data pos)
  /\ forall s pos', read_blob data pos = JOk (s, pos') -> 255 :: s = piece data (pos - 2) pos' /\ nth_error s 0 = Some m.
Proof.
  intros Y (H1 & H2 & H3). pose proof (read_blob_ok data pos Y H1) as K. split; [exact (jpost_no_ub _ _ K)|].
  intros s pos' E. rewrite E in K. destruct K as (P & WR & P2). cbn [fst snd] in *. specialize (WR H2). split.
  - apply piece_of; [exact WR|]. cbn [length]. lia.
  - destruct s as [|b s]; [cbn [length] in P2; lia|]. cbn [nth_error]. destruct WR as (pre & rest & -> & L).
    apply aget_Some in H3 as [_ H3]. replace (Z.to_nat (pos - 1)) with (length pre + 1)%nat in H3 by lia. rewrite nth_error_app2 in H3 by lia.
    replace (length pre + 1 - length pre)%nat with 1%nat in H3 by lia. exact H3.
Qed.
Print Assumptions C47_stored_segments.

(** Bytes between markers. *)
Theorem C47_between_markers data pos st : 0 <= pos <= Z.of_nat (length data) ->
  no_ub (read_inter data pos st)
  /\ forall st' pos', read_inter data pos st = JOk (st', pos') ->
     (st' = st /\ pos' = pos)
     \/ (j_markers (rf_j st') = j_markers (rf_j st) ++ [255] /\ j_inter (rf_j st') = j_inter (rf_j st) ++ [piece data pos pos']
         /\ forall J w rest, wf_inter w = piece data pos pos' :: rest -> exists w', write_section J 255 w = JOk (piece data pos pos', w') /\ wf_inter w' = rest).
Proof.
  intros H. pose proof (read_inter_ok data pos st H) as K. split; [exact (jpost_no_ub _ _ K)|]. intros st' pos' E. rewrite E in K.
  destruct K as (_ & _ & [K|(s & ES & S1 & EP)]); cbn [fst snd] in *; [left; exact K|right]. subst st'.
  assert (EPI : s = piece data pos pos') by (rewrite EP; symmetry; apply piece_sl; exact S1). rewrite <- EPI.
  split; [reflexivity|]. split; [reflexivity|]. intros J w rest EW. eexists. split; [exact (write_inter J w s rest EW)|reflexivity].
Qed.
Print Assumptions C47_between_markers.

(** * Files *)

(** ReadJpeg never leaves the input, a table or a coefficient array, and it comes to an end
    ([JUB] is also the result of running out of steps), whatever the bytes and the mode are. *)
Theorem C50_reader_safe mode data : bytes data -> no_ub (read_jpeg mode data).
Proof. intros Y. exact (jpost_no_ub _ _ (read_jpeg_ok mode data Y)). Qed.
Print Assumptions C50_reader_safe.

(** Whatever file ReadJpeg accepts in full, WriteJpeg reproduces byte for byte. *)
Theorem C46_read_write data J : bytes data -> read_jpeg RAll data = JOk J -> write_jpeg J = JOk data.
Proof. intros Y E. pose proof (read_jpeg_ok RAll data Y) as K. rewrite E in K. exact (K eq_refl). Qed.
Print Assumptions C46_read_write.

(** Nothing is lost: different files have different JPEGData. *)
Theorem C46_injective d1 d2 J : bytes d1 -> bytes d2 -> read_jpeg RAll d1 = JOk J -> read_jpeg RAll d2 = JOk J -> d1 = d2.
Proof. intros Y1 Y2 E1 E2. pose proof (C46_read_write _ _ Y1 E1) as W1. pose proof (C46_read_write _ _ Y2 E2) as W2. rewrite W1 in W2. injection W2 as W2. exact W2. Qed.
Print Assumptions C46_injective.

(** * Non-vacuity *)

Definition ex_soi : list Z := [255; 216].
Definition ex_app : list Z := [255; 224; 0; 5; 74; 70; 73].
Definition ex_junk : list Z := [1; 2; 255; 0; 255].
Definition ex_com : list Z := [255; 254; 0; 3; 33].
Definition ex_dqt : list Z := [255; 219; 0; 67; 1] ++ repeat 3 64.
Definition ex_dri : list Z := [255; 221; 0; 4; 0; 3].
Definition ex_sof (m : Z) : list Z := [255; m; 0; 11; 8; 0; 16; 0; 16; 1; 7; 17; 1].
Definition ex_dht : list Z :=
  [255; 196; 0; 64; 0; 0; 0; 0; 12; 0; 0; 0; 0; 0; 0; 0; 0; 0; 0; 0; 0; 0; 1; 2; 3; 4; 5; 6; 7; 8; 9; 10; 11;
   16; 0; 0; 0; 8; 8; 0; 0; 0; 0; 0; 0; 0; 0; 0; 0; 0; 0; 1; 2; 3; 17; 33; 240; 16; 32; 4; 5; 49; 65; 18; 50; 209].
Definition ex_sos (ss se a : Z) : list Z := [255; 218; 0; 8; 1; 7; 0; ss; se; a].
Definition ex_tail : list Z := [1; 2; 3; 255].

(** A sequential file with extra bytes in three places. *)
Definition ex_file : list Z :=
  ex_soi ++ ex_app ++ ex_junk ++ ex_com ++ ex_dqt ++ ex_sof 192 ++ ex_dht
  ++ ex_sos 0 63 0 ++ [110; 72; 102; 107; 221; 146; 138; 0; 102; 0; 5] ++ [9; 9] ++ [255; 217] ++ ex_tail.
(** A progressive file of four scans. *)
Definition ex_pfile : list Z :=
  ex_soi ++ ex_dqt ++ ex_sof 194 ++ ex_dht
  ++ ex_sos 0 0 1 ++ [94; 51; 32; 31] ++ ex_sos 1 63 1 ++ [16; 78; 224] ++ ex_sos 0 0 16 ++ [143]
  ++ ex_sos 1 63 16 ++ [107; 53; 234; 112; 63] ++ [255; 217].

Definition check_file (data : list Z) (scans : nat) : bool :=
  match read_jpeg RAll data with
  | JOk J => Nat.eqb (length (j_scans J)) scans
             && match write_jpeg J with JOk out => forallb (fun p => fst p =? snd p) (combine out data) && Nat.eqb (length out) (length data) | _ => false end
  | _ => false
  end.

Example C46_case : bytes ex_file /\ check_file ex_file 1 = true /\ bytes ex_pfile /\ check_file ex_pfile 4 = true.
Proof.
  assert (B : forall l, forallb (fun b => (0 <=? b) && (b <? 256)) l = true -> bytes l).
  { intros l H. apply Forall_forall. intros b HI. rewrite forallb_forall in H. specialize (H b HI). unfold is_byte. lia. }
  split; [apply B; vm_compute; reflexivity|]. split; [vm_compute; reflexivity|]. split; [apply B; vm_compute; reflexivity|]. vm_compute. reflexivity.
Qed.

(** The other modes accept the example as well, and a broken file is an error. *)
Definition accepts {A} (m : jres A) : bool := match m with JOk _ => true | _ => false end.
Definition rejects {A} (m : jres A) : bool := match m with JErr => true | _ => false end.
Example C50_case : accepts (read_jpeg RHeader ex_file) = true /\ accepts (read_jpeg RTables ex_file) = true
  /\ rejects (read_jpeg RAll (firstn 180 ex_file)) = true /\ rejects (read_jpeg RAll []) = true.
Proof. vm_compute. auto. Qed.

(** Every kind of segment of the example is read at its place. *)
Example C47_case :
  (exists j', read_sof true (ex_sof 192) 2 empty_jpeg = JOk (j', 13) /\ behind (ex_sof 192) 2 192)
  /\ (exists t', read_dht true ex_dht 2 (mkTB (repeat lut_init 4) (repeat lut_init 4) []) = JOk (t', 66) /\ behind ex_dht 2 196)
  /\ (exists q', read_dqt ex_dqt 2 [] = JOk (q', 69) /\ behind ex_dqt 2 219)
  /\ (read_dri ex_dri 2 false = JOk (3, 6) /\ behind ex_dri 2 221)
  /\ (exists s, read_blob ex_com 2 = JOk (s, 5) /\ behind ex_com 2 254)
  /\ four_slots (repeat lut_init 4) fresh_tabs.
Proof.
  split; [eexists; split; [vm_compute; reflexivity|split; [lia|split; reflexivity]]|].
  split; [eexists; split; [vm_compute; reflexivity|split; [lia|split; reflexivity]]|].
  split; [eexists; split; [vm_compute; reflexivity|split; [lia|split; reflexivity]]|].
  split; [split; [vm_compute; reflexivity|split; [lia|split; reflexivity]]|].
  split; [eexists; split; [vm_compute; reflexivity|split; [lia|split; reflexivity]]|].
  split; [reflexivity|]. repeat (constructor; [constructor; apply repeat_length|]). constructor.
Qed.
