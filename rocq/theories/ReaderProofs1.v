(** What the JPEG reader puts into a JPEGData: marker segments. *)
From Verif Require Import Base JpegModel LehmerModel LehmerProofs HeaderModel HeaderProofs JBitModel JReadProofs JHuffModel JScanModel JScanProofs1 JScanProofs8 JSegModel JSegProofs1 JSegProofs2 JFileModel
  InternalsModel InternalsProofs MetaProofs QuantProofs.
Local Notation between := JSegModel.between.

(** [P] holds of the result if there is one. *)
Definition jpart {A} (m : jres A) (P : A -> Prop) : Prop := match m with JOk a => P a | _ => True end.

Lemma jpart_bind {A B} (m : jres A) (k : A -> jres B) (Q : A -> Prop) (P : B -> Prop) :
  jpart m Q -> (forall a, Q a -> jpart (k a) P) -> jpart (jbind m k) P.
Proof. destruct m; cbn [jpart jbind]; auto. Qed.
Lemma jpart_guard {A} b (k : jres A) P : (b = true -> jpart k P) -> jpart (guard b k) P.
Proof. destruct b; cbn [guard jpart]; auto. Qed.
Lemma jpart_weaken {A} (m : jres A) (P Q : A -> Prop) : jpart m P -> (forall a, P a -> Q a) -> jpart m Q.
Proof. destruct m; cbn [jpart]; auto. Qed.
Lemma jpart_eq {A} (m : jres A) : jpart m (fun a => m = JOk a).
Proof. destruct m; cbn [jpart]; auto. Qed.
Lemma jpart_conj {A} (m : jres A) (P Q : A -> Prop) : jpart m P -> jpart m Q -> jpart m (fun a => P a /\ Q a).
Proof. destruct m; cbn [jpart]; auto. Qed.
Lemma jpart_of_post {A} (m : jres A) (P : A -> Prop) : jpost m P -> jpart m P.
Proof. destruct m; cbn [jpart jpost]; auto. Qed.
Lemma jpart_get {A} (m : jres A) (P : A -> Prop) a : jpart m P -> m = JOk a -> P a.
Proof. intros H ->. exact H. Qed.

Lemma jpart_byte data i : bytes data -> jpart (aget data i) is_byte.
Proof. intros Y. destruct (aget data i) eqn:E; cbn [jpart]; auto. eapply aget_byte; eauto. Qed.
Lemma jpart_u16 data i : bytes data -> jpart (u16 data i) (fun v => 0 <= v < 65536).
Proof.
  intros Y. unfold u16. eapply jpart_bind; [apply (jpart_byte data i Y)|]. intros a A. eapply jpart_bind; [apply (jpart_byte data (i + 1) Y)|]. intros b B.
  cbn [jpart]. unfold is_byte in *. lia.
Qed.
Lemma jpart_aset {A} (l : list A) i v : jpart (aset l i v) (fun l' => 0 <= i < Z.of_nat (length l) /\ l' = upd l (Z.to_nat i) v).
Proof.
  unfold aset. destruct (Z.leb_spec 0 i); cbn [andb]; [|exact Logic.I]. destruct (Z.ltb_spec i (Z.of_nat (length l))); [|exact Logic.I]. cbn [jpart]. split; [lia|reflexivity].
Qed.

(** * Frame header *)

Definition samps (l : list component) : samplings := map (fun c => (c_h c, c_v c)) l.
Definition ids (l : list component) : list Z := map c_id l.

Lemma sof_comps_part data : bytes data -> forall n pos seen mh mv,
  jpart (sof_comps n data pos seen mh mv) (fun r => length (fst r) = n /\ Forall is_byte (ids (fst r)) /\ Forall samp_ok (samps (fst r))
    /\ fst (snd r) = fold_left (fun m c => Z.max m (fst c)) (samps (fst r)) mh /\ snd (snd r) = fold_left (fun m c => Z.max m (snd c)) (samps (fst r)) mv).
Proof.
  intros Y. induction n as [|n IH]; intros pos seen mh mv; cbn [sof_comps].
  - cbn [jpart fst snd samps ids map fold_left length]. repeat split; constructor.
  - eapply jpart_bind; [apply (jpart_byte data pos Y)|]. intros id B1. apply jpart_guard. intros _.
    eapply jpart_bind; [apply (jpart_byte data _ Y)|]. intros f B2. cbv zeta. apply jpart_guard. intros G. apply andb_true_iff in G as [G1 G2]. apply between_true in G1, G2.
    eapply jpart_bind; [apply (jpart_byte data _ Y)|]. intros q B3.
    eapply jpart_bind; [apply IH|]. intros [l [a b]] (K1 & K2 & K3 & K4 & K5). cbn [fst snd] in *. cbn [jpart fst snd].
    cbn [samps ids map length fold_left c_id c_h c_v fst snd]. split; [lia|]. split; [constructor; auto|]. split; [constructor; [split; cbn [fst snd]; lia|exact K3]|]. auto.
Qed.

Lemma sof_blocks_part full mh mv rows cols : forall l, jpart (sof_blocks full mh mv rows cols l) (fun r => ids r = ids l /\ samps r = samps l
  /\ Forall (fun c => c_wb c = cols * c_h c /\ c_hb c = rows * c_v c /\ c_wb c * c_hb c <= 2 ^ 21) r).
Proof.
  induction l as [|c l IH]; cbn [sof_blocks]; [cbn [jpart]; repeat split; constructor|].
  apply jpart_guard. intros _. cbv zeta. apply jpart_guard. intros G. apply Z.leb_le in G. eapply jpart_bind; [exact IH|]. intros r (F1 & F2 & F3). cbn [jpart].
  cbn [ids samps map c_id c_h c_v]. fold (ids r) (samps r) (ids l) (samps l). rewrite F1, F2. repeat split. constructor; [|exact F3]. cbn [c_wb c_hb c_h c_v]. auto.
Qed.

(** The frame that was read; everything but the coefficients. *)
Record frame_in (j : jpeg) : Prop := {
  fi_w : 1 <= j_width j <= 65535; fi_h : 1 <= j_height j <= 65535;
  fi_n : (1 <= length (j_comps j) <= 4)%nat;
  fi_ids : Forall is_byte (ids (j_comps j));
  fi_samps : Forall samp_ok (samps (j_comps j));
  fi_mh : j_max_h j = max_samp fst (samps (j_comps j));
  fi_mv : j_max_v j = max_samp snd (samps (j_comps j));
  fi_cols : j_mcu_cols j = HeaderModel.div_ceil (j_width j) (j_max_h j * 8);
  fi_rows : j_mcu_rows j = HeaderModel.div_ceil (j_height j) (j_max_v j * 8);
  fi_blocks : Forall (fun c => c_wb c = j_mcu_cols j * c_h c /\ c_hb c = j_mcu_rows j * c_v c /\ c_wb c * c_hb c <= 2 ^ 21) (j_comps j) }.

Lemma samps_length l : length (samps l) = length l.
Proof. apply map_length. Qed.
Lemma ids_length l : length (ids l) = length l.
Proof. apply map_length. Qed.

Lemma read_sof_part full data pos j : bytes data -> j_max_h j = 1 -> j_max_v j = 1 ->
  jpart (read_sof full data pos j) (fun r => j_width j = 0 /\ pos + 8 <= snd r /\ exists w h mh mv rows cols comps,
    fst r = with_frame j w h mh mv rows cols comps /\ frame_in (fst r)).
Proof.
  intros Y E1 E2. unfold read_sof. apply jpart_guard. intros G0. apply Z.eqb_eq in G0. apply jpart_guard. intros G1.
  eapply jpart_bind; [apply (jpart_u16 data _ Y)|]. intros mlen _. eapply jpart_bind; [apply (jpart_byte data _ Y)|]. intros prec _.
  eapply jpart_bind; [apply (jpart_u16 data _ Y)|]. intros h _. eapply jpart_bind; [apply (jpart_u16 data _ Y)|]. intros w _.
  eapply jpart_bind; [apply (jpart_byte data _ Y)|]. intros n _.
  apply jpart_guard. intros _. apply jpart_guard. intros H1. apply jpart_guard. intros H2. apply jpart_guard. intros H3. apply between_true in H1, H2, H3.
  apply jpart_guard. intros _. eapply jpart_bind; [apply (sof_comps_part data Y)|]. intros [l [mh mv]] (K1 & K2 & K3 & K4 & K5). cbn [fst snd] in *.
  eapply jpart_bind; [apply sof_blocks_part|]. intros comps (B1 & B2 & B3). cbv beta zeta. apply jpart_guard. intros _. cbn [jpart fst snd].
  split; [exact G0|]. split; [lia|]. do 7 eexists. split; [reflexivity|].
  rewrite E1 in K4. rewrite E2 in K5.
  assert (LC : length comps = length l) by (rewrite <- (ids_length comps), B1; apply ids_length).
  constructor; cbn [with_frame j_width j_height j_comps j_max_h j_max_v j_mcu_cols j_mcu_rows]; try lia; auto.
  - rewrite B1. exact K2.
  - rewrite B2. exact K3.
  - rewrite B2. exact K4.
  - rewrite B2. exact K5.
Qed.

(** * Scan header *)
Lemma sos_comps_part data comps : bytes data -> (length comps <= 4)%nat -> forall n pos seen,
  jpart (sos_comps n data pos seen comps) (fun l => length l = n /\ Forall comp_ok l /\ Forall (fun s => 0 <= cs_comp s < Z.of_nat (length comps)) l).
Proof.
  intros Y L4. induction n as [|n IH]; intros pos seen; cbn [sos_comps]; [cbn [jpart]; repeat split; constructor|].
  eapply jpart_bind; [apply (jpart_byte data _ Y)|]. intros id _. apply jpart_guard. intros _.
  destruct (find_comp id 0 comps None) as [ci|] eqn:EF; [|exact Logic.I].
  apply find_comp_ok in EF as [EF|(m & c & EF & EC & EI)]; [discriminate|].
  eapply jpart_bind; [apply (jpart_byte data _ Y)|]. intros b B. cbv zeta. apply jpart_guard. intros G. apply andb_true_iff in G as [G1 G2]. apply between_true in G1, G2.
  eapply jpart_bind; [apply IH|]. intros l (K1 & K2 & K3). cbn [jpart].
  assert (HC : 0 <= ci < Z.of_nat (length comps)) by (assert (N : nth_error comps m <> None) by congruence; apply nth_error_Some in N; lia).
  split; [cbn [length]; lia|]. split; constructor; auto. unfold comp_ok. cbn [cs_comp cs_dc cs_ac]. lia.
Qed.

Definition head_ok (comps : list component) (s : scaninfo) : Prop :=
  0 <= si_ss s < 64 /\ 0 <= si_se s < 64 /\ 0 <= si_ah s < 16 /\ 0 <= si_al s < 16 /\
  (1 <= length (si_comps s) <= 4)%nat /\ Forall comp_ok (si_comps s) /\ Forall (fun s => 0 <= cs_comp s < Z.of_nat (length comps)) (si_comps s).

Lemma read_sos_part data pos j : bytes data -> (length (j_comps j) <= 4)%nat ->
  jpart (read_sos data pos j) (fun r => head_ok (j_comps j) (fst r) /\ pos + 3 <= snd r).
Proof.
  intros Y L4. unfold read_sos. apply jpart_guard. intros _. eapply jpart_bind; [apply (jpart_u16 data _ Y)|]. intros mlen _.
  eapply jpart_bind; [apply (jpart_byte data _ Y)|]. intros n _. apply jpart_guard. intros G. apply between_true in G. apply jpart_guard. intros _.
  eapply jpart_bind; [apply (sos_comps_part data _ Y L4)|]. intros cs (C1 & C2 & C3). cbv zeta. apply jpart_guard. intros _.
  eapply jpart_bind; [apply (jpart_byte data _ Y)|]. intros ss _. eapply jpart_bind; [apply (jpart_byte data _ Y)|]. intros se _.
  apply jpart_guard. intros G1. apply between_true in G1. apply jpart_guard. intros G2. apply between_true in G2.
  eapply jpart_bind; [apply (jpart_byte data _ Y)|]. intros c B. apply jpart_guard. intros _. apply jpart_guard. intros _. cbn [jpart fst snd].
  split; [|lia]. unfold head_ok. cbn [si_ss si_se si_ah si_al si_comps]. pose proof (nib_hi c B). pose proof (nib_lo c).
  split; [lia|]. split; [lia|]. split; [lia|]. split; [lia|]. split; [lia|]. auto.
Qed.

(** * Huffman codes *)
Lemma dht_counts_part data : bytes data -> forall n pos i total depth space,
  jpart (dht_counts n data pos i total depth space) (fun r => length (fst r) = n /\ Forall is_byte (fst r)
    /\ fst (snd r) = total + sumZ (fst r) /\ (fst (snd (snd r)) = depth \/ i <= fst (snd (snd r)) < i + Z.of_nat n)).
Proof.
  intros Y. induction n as [|n IH]; intros pos i total depth space; cbn [dht_counts].
  - cbn [jpart fst snd length]. split; [reflexivity|]. split; [constructor|]. split; [change (sumZ []) with 0; lia|auto].
  - eapply jpart_bind; [apply (jpart_byte data _ Y)|]. intros c B. eapply jpart_bind; [apply IH|]. intros [l [t [d s]]] (K1 & K2 & K3 & K4). cbn [fst snd] in *. cbn [jpart fst snd].
    split; [cbn [length]; lia|]. split; [constructor; auto|]. rewrite sumZ_cons. split; [lia|]. destruct (c =? 0); lia.
Qed.

Lemma dht_values_part data is_ac : bytes data -> forall n pos seen,
  jpart (dht_values n data pos is_ac seen) (fun l => length l = n).
Proof.
  intros Y. induction n as [|n IH]; intros pos seen; cbn [dht_values]; [reflexivity|].
  eapply jpart_bind; [apply (jpart_byte data _ Y)|]. intros v _. apply jpart_guard. intros _. apply jpart_guard. intros _.
  eapply jpart_bind; [apply IH|]. intros l K. cbv beta in K. cbn [jpart length]. lia.
Qed.

Lemma slot_range slot idx : is_byte slot -> idx = (if negb (Z.land slot 16 =? 0) then slot - 16 else slot) -> 0 <= idx <= 3 -> 0 <= slot <= 3 \/ 16 <= slot <= 19.
Proof. intros _ E H. destruct (negb (Z.land slot 16 =? 0)); lia. Qed.

Lemma huff_extra cl d slot vl last : length cl = 16%nat -> Forall is_byte cl -> 1 <= d <= 16 -> sumZ cl = Z.of_nat (length vl) -> (length vl <= 256)%nat ->
  0 <= slot <= 3 \/ 16 <= slot <= 19 ->
  huff_ok (mkHC (upd (0 :: cl) (Z.to_nat d) (nth (Z.to_nat d) (0 :: cl) 0 + 1)) (upd (vl ++ repeat 0 (257 - length vl)) (length vl) 256) slot last).
Proof.
  intros L F D SV LV SL. unfold huff_ok. cbn [hc_counts hc_values hc_slot].
  assert (EV : upd (vl ++ repeat 0 (257 - length vl)) (length vl) 256 = (vl ++ [256]) ++ repeat 0 (256 - length vl)).
  { replace (257 - length vl)%nat with (S (256 - length vl)) by lia. cbn [repeat]. rewrite upd_end, <- app_assoc. reflexivity. }
  split; [rewrite upd_length; cbn [length]; lia|]. split; [rewrite EV, !app_length, repeat_length; cbn [length]; lia|].
  assert (N0 : 0 <= nth (Z.to_nat d) (0 :: cl) 0).
  { destruct (nth_in_or_default (Z.to_nat d) (0 :: cl) 0) as [I|I]; [|rewrite I; lia]. destruct I as [<-|I]; [lia|]. rewrite Forall_forall in F. specialize (F _ I). unfold is_byte in F. lia. }
  split; [apply JScanProofs6.Forall_upd; [|lia]; constructor; [lia|]; eapply Forall_impl; [|exact F]; unfold is_byte; intros; lia|].
  split; [rewrite nth_upd_other by lia; reflexivity|]. split; [exact SL|].
  rewrite sumZ_upd by (cbn [length]; lia). rewrite sumZ_cons, SV, EV. apply Forall_forall. intros v I.
  replace (Z.to_nat (0 + Z.of_nat (length vl) + 1)) with (length (vl ++ [256%Z]) + 0)%nat in I by (rewrite app_length; cbn [length]; lia).
  rewrite skipn_app in I. replace (length (vl ++ [256%Z]) + 0 - length (vl ++ [256%Z]))%nat with 0%nat in I by lia. rewrite skipn_all2 in I by lia. cbn [app skipn] in I.
  apply repeat_spec in I. exact I.
Qed.

Definition lasts (l : list huffcode) : nat := length (filter hc_last l).

Lemma dht_table_part full data fin pos t : bytes data ->
  jpart (dht_table full data fin pos t) (fun r => pos + 17 <= snd r /\ exists h, tb_huff (fst r) = tb_huff t ++ [h] /\ huff_ok h /\ hc_last h = (snd r =? fin)).
Proof.
  intros Y. unfold dht_table. apply jpart_guard. intros _. eapply jpart_bind; [apply (jpart_byte data _ Y)|]. intros slot B. cbv zeta.
  apply jpart_guard. intros G1. apply between_true in G1. eapply jpart_bind; [apply jpart_eq|]. intros lut _.
  eapply jpart_bind; [apply (dht_counts_part data Y)|]. intros [cl [total [depth space]]] (C1 & C2 & C3 & C4). cbn [fst snd] in *.
  apply jpart_guard. intros G2. apply between_true in G2. apply jpart_guard. intros _.
  eapply jpart_bind; [apply (dht_values_part data _ Y)|]. intros vl LV. cbv beta in LV.
  eapply jpart_bind; [apply jpart_eq|]. intros cd ECD. eapply jpart_bind; [apply jpart_aset|]. intros counts [HC1 ->].
  eapply jpart_bind; [apply jpart_aset|]. intros values [HV1 ->].
  apply jpart_guard. intros _. eapply jpart_bind; [apply jpart_eq|]. intros lut' _. eapply jpart_bind; [apply jpart_eq|]. intros luts _.
  cbn [jpart fst snd tb_huff]. split; [lia|]. eexists. split; [reflexivity|]. split; [|reflexivity].
  assert (CD : cd = nth (Z.to_nat depth) (0 :: cl) 0).
  { rewrite aget_nth in ECD by exact HC1. injection ECD as <-. reflexivity. }
  rewrite CD. replace (Z.to_nat total) with (length vl). 
  apply huff_extra; auto; try lia.
  - destruct (negb (Z.land slot 16 =? 0)); lia.
  - eapply slot_range; [exact B|reflexivity|exact G1].
Qed.

Lemma lasts_snoc l h : lasts (l ++ [h]) = (lasts l + if hc_last h then 1 else 0)%nat.
Proof. unfold lasts. rewrite filter_app, app_length. cbn [filter]. destruct (hc_last h); reflexivity. Qed.

Lemma dht_loop_part full data fin : bytes data -> forall fuel pos t,
  jpart (dht_loop fuel full data fin pos t) (fun r => pos <= snd r /\ (Forall huff_ok (tb_huff t) -> Forall huff_ok (tb_huff (fst r)))
    /\ (pos < fin -> snd r = fin -> lasts (tb_huff (fst r)) = S (lasts (tb_huff t)))
    /\ (length (tb_huff t) <= length (tb_huff (fst r)))%nat).
Proof.
  intros Y. induction fuel as [|fuel IH]; intros pos t; cbn [dht_loop]; [exact Logic.I|].
  destruct (Z.ltb_spec pos fin) as [H|H]; [|cbn [jpart fst snd]; split; [lia|]; split; [auto|]; split; [lia|lia]].
  eapply jpart_bind; [apply (dht_table_part full data fin pos t Y)|]. intros [t1 pos1] (P1 & h & E & HO & HL). cbn [fst snd] in *.
  eapply jpart_weaken; [apply (jpart_conj _ _ _ (IH pos1 t1) (jpart_eq _))|]. intros [t2 pos2] [(K1 & K2 & K3 & K4) EQ]. cbn [fst snd] in *.
  split; [lia|]. split; [intros F; apply K2; rewrite E; apply Forall_app; split; [exact F|constructor; [exact HO|constructor]]|].
  split; [|rewrite E, app_length in K4; cbn [length] in K4; lia].
  intros _ EF. rewrite E, lasts_snoc, HL in K3. destruct (Z.eqb_spec pos1 fin) as [E1|N1].
  - destruct fuel as [|fuel]; [discriminate EQ|]. cbn [dht_loop] in EQ. destruct (Z.ltb_spec pos1 fin); [lia|]. injection EQ as <- <-. rewrite E, lasts_snoc, HL.
    lia.
  - rewrite K3 by lia. lia.
Qed.

Lemma read_dht_part full data pos t : bytes data ->
  jpart (read_dht full data pos t) (fun r => pos + 2 <= snd r /\ (Forall huff_ok (tb_huff t) -> Forall huff_ok (tb_huff (fst r)))
    /\ lasts (tb_huff (fst r)) = S (lasts (tb_huff t))).
Proof.
  intros Y. unfold read_dht. apply jpart_guard. intros _. eapply jpart_bind; [apply (jpart_u16 data _ Y)|]. intros mlen M. apply jpart_guard. intros N.
  eapply jpart_bind; [apply (dht_loop_part full data (pos + mlen) Y)|]. intros [t' pos'] (K1 & K2 & K3 & K4). cbn [fst snd] in *. apply jpart_guard. intros G. apply Z.eqb_eq in G.
  cbn [jpart fst snd]. split; [lia|]. split; [exact K2|]. apply K3; [|lia]. destruct (Z.eqb_spec mlen 2); [discriminate N|lia].
Qed.

(** * Quantization tables *)
Lemma natural_onto k : 0 <= k < 64 -> exists i, 0 <= i < 64 /\ nat_at i = k.
Proof.
  intros H.
  assert (X : forallb (fun x => (nat_at (nth (Z.to_nat x) kZigZagOrder 0) =? x) && (0 <=? nth (Z.to_nat x) kZigZagOrder 0) && (nth (Z.to_nat x) kZigZagOrder 0 <? 64)) (map Z.of_nat (seq 0 64)) = true)
    by (vm_compute; reflexivity).
  rewrite forallb_forall in X. specialize (X k). exists (nth (Z.to_nat k) kZigZagOrder 0).
  assert (I : In k (map Z.of_nat (seq 0 64))) by (apply in_map_iff; exists (Z.to_nat k); split; [lia|apply in_seq; lia]).
  specialize (X I). rewrite !andb_true_iff in X. lia.
Qed.

Definition qval (prec v : Z) : Prop := 1 <= v <= 65535 /\ (prec = 0 -> v <= 255).

Lemma dqt_values_part data prec : bytes data -> forall n i pos values, 0 <= i -> i + Z.of_nat n = 64 -> length values = 64%nat ->
  (forall k, 0 <= k < i -> qval prec (zat values k)) ->
  jpart (dqt_values n data prec pos i values) (fun vs => length vs = 64%nat /\ forall k, 0 <= k < 64 -> qval prec (zat vs k)).
Proof.
  intros Y. induction n as [|n IH]; intros i pos values Hi Hn LV HV; cbn [dqt_values].
  - cbn [jpart]. split; [exact LV|]. intros k Hk. apply HV. lia.
  - apply jpart_bind with (Q := fun v => prec = 0 -> v <= 255).
    { destruct (Z.eqb_spec prec 0) as [->|N]; [eapply jpart_weaken; [apply (jpart_byte data _ Y)|unfold is_byte; intros; lia]|]. eapply jpart_weaken; [apply jpart_eq|]. intros; contradiction. }
    intros v V. apply jpart_guard. intros G. apply between_true in G. rewrite nat_at_get by lia. cbn [jbind]. pose proof (nat_at_range i ltac:(lia)) as NR.
    rewrite aset_good by lia. cbn [jbind]. change (upd values (Z.to_nat (nat_at i)) v) with (zup values i v). apply IH; [lia|lia|rewrite zup_length; exact LV|].
    intros k Hk. destruct (Z.eq_dec k i) as [->|N]; [rewrite zat_zup_same by lia; split; [lia|exact V]|]. rewrite zat_zup_other by lia. apply HV. lia.
Qed.

Lemma qvalues_of vs prec : length vs = 64%nat -> (forall k, 0 <= k < 64 -> qval prec (zat vs k)) -> qvalues_ok prec vs.
Proof.
  intros L H.
  assert (A : forall v, In v vs -> qval prec v).
  { intros v I. apply (In_nth _ _ 0) in I as (n & Hn & <-). destruct (natural_onto (Z.of_nat n) ltac:(lia)) as (i & Hi & E). specialize (H i Hi). unfold zat in H. rewrite E, Nat2Z.id in H. exact H. }
  split; [exact L|]. split; [apply Forall_forall; intros v I; apply A; exact I|]. intros P. apply Forall_forall. intros v I. apply A; assumption.
Qed.

Definition quant_in (q : qtable) : Prop := qhead_ok (q_index q, q_last q, q_precision q) /\ qvalues_ok (q_precision q) (q_values q).

Lemma dqt_loop_part data fin : bytes data -> forall fuel pos q, (length q <= 4)%nat ->
  jpart (dqt_loop fuel data fin pos q) (fun r => pos <= snd r /\ (length (fst r) <= 4)%nat /\ (Forall quant_in q -> Forall quant_in (fst r))).
Proof.
  intros Y. induction fuel as [|fuel IH]; intros pos q L4; cbn [dqt_loop]; [exact Logic.I|].
  destruct ((pos <? fin) && (Z.of_nat (length q) <? 4)) eqn:C; [|cbn [jpart fst snd]; split; [lia|auto]].
  apply andb_true_iff in C as [C1 C2]. apply Z.ltb_lt in C2. apply jpart_guard. intros _. eapply jpart_bind; [apply (jpart_byte data _ Y)|]. intros b B. cbv zeta.
  apply jpart_guard. intros G1. apply jpart_guard. intros G2. apply jpart_guard. intros _. apply between_true in G1, G2.
  eapply jpart_bind; [apply (dqt_values_part data (Z.shiftr b 4) Y 64 0 (pos + 1) (repeat 0 64)); [lia|lia|apply repeat_length|intros; lia]|]. intros vs [V1 V2].
  eapply jpart_weaken; [apply IH; rewrite app_length; cbn [length]; lia|]. intros [q' pos'] (K1 & K2 & K3). cbn [fst snd] in *.
  split; [lia|]. split; [exact K2|]. intros F. apply K3. apply Forall_app. split; [exact F|]. constructor; [|constructor].
  split; cbn [q_index q_last q_precision q_values qhead_ok]; [unfold qhead_ok; lia|]. apply qvalues_of; assumption.
Qed.

Lemma read_dqt_part data pos q : bytes data -> (length q <= 4)%nat ->
  jpart (read_dqt data pos q) (fun r => pos + 2 <= snd r /\ (length (fst r) <= 4)%nat /\ (Forall quant_in q -> Forall quant_in (fst r))).
Proof.
  intros Y L4. unfold read_dqt. apply jpart_guard. intros _. eapply jpart_bind; [apply (jpart_u16 data _ Y)|]. intros mlen _. apply jpart_guard. intros _.
  eapply jpart_bind; [apply (dqt_loop_part data _ Y _ _ _ L4)|]. intros [q' pos'] (K1 & K2 & K3). cbn [fst snd] in *. apply jpart_guard. intros G. apply Z.eqb_eq in G. cbn [jpart fst snd].
  split; [lia|]. auto.
Qed.

Lemma read_dri_part data pos found : bytes data -> jpart (read_dri data pos found) (fun r => 0 <= fst r < 65536 /\ snd r = pos + 4).
Proof.
  intros Y. unfold read_dri. apply jpart_guard. intros _. apply jpart_guard. intros _. eapply jpart_bind; [apply (jpart_u16 data _ Y)|]. intros mlen _.
  eapply jpart_bind; [apply (jpart_u16 data _ Y)|]. intros r H. apply jpart_guard. intros _. cbn [jpart fst snd]. auto.
Qed.

(** * APP and COM *)
Lemma read_blob_part data pos marker : bytes data -> 2 <= pos -> aget data (pos - 1) = JOk marker ->
  jpart (read_blob data pos) (fun r => segment_ok marker marker (fst r) /\ snd r = pos - 1 + Z.of_nat (length (fst r)) /\ pos + 2 <= snd r).
Proof.
  intros Y Hp EM. unfold read_blob. apply jpart_guard. intros G1. apply has_len_true in G1. unfold u16.
  eapply jpart_bind with (Q := fun v => exists a b, aget data pos = JOk a /\ aget data (pos + 1) = JOk b /\ v = a * 256 + b).
  { destruct (aget data pos) as [a| |] eqn:A; cbn [jbind jpart]; auto. destruct (aget data (pos + 1)) as [b| |] eqn:B; cbn [jbind jpart]; auto. eauto 6. }
  intros mlen (a & b & A & B & ->). apply jpart_guard. intros G2. apply between_true in G2. apply jpart_guard. intros _.
  eapply jpart_bind; [apply jpart_eq|]. intros s E. cbn [jpart fst snd]. apply slice_sl in E as [S1 S2].
  split; [|lia]. split; [eapply sl_bytes; eauto|].
  replace (pos + 2 - 3) with (pos - 1) in S1 by lia.
  destruct s as [|m s]; [cbn [length] in S2; lia|]. destruct s as [|h s]; [cbn [length] in S2; lia|]. destruct s as [|l s]; [cbn [length] in S2; lia|].
  pose proof (sl_aget _ _ _ 0%nat m S1 eq_refl) as T0. pose proof (sl_aget _ _ _ 1%nat h S1 eq_refl) as T1. pose proof (sl_aget _ _ _ 2%nat l S1 eq_refl) as T2.
  replace (pos - 1 + Z.of_nat 0) with (pos - 1) in T0 by lia. replace (pos - 1 + Z.of_nat 1) with pos in T1 by lia. replace (pos - 1 + Z.of_nat 2) with (pos + 1) in T2 by lia.
  exists m, h, l, s. split; [reflexivity|]. assert (m = marker) by congruence. assert (h = a) by congruence. assert (l = b) by congruence. subst. cbn [length] in S2. lia.
Qed.
