(** Frame and scan headers: what is read is written back. *)
From Coq Require Import ZArith List Bool Lia.
From Verif Require Import Base JpegModel LehmerModel JBitModel JWriteProofs JReadProofs JHuffModel JHuffProofs JScanModel JScanProofs8 JSegModel.
Import ListNotations.
Local Open Scope Z_scope.

(** [P] holds of the result; undefined behaviour is excluded. *)
Definition jpost {A} (m : jres A) (P : A -> Prop) : Prop :=
  match m with JOk a => P a | JErr => True | JUB => False end.

Lemma jpost_bind {A B} (m : jres A) (k : A -> jres B) (Q : A -> Prop) (P : B -> Prop) :
  jpost m Q -> (forall a, Q a -> jpost (k a) P) -> jpost (jbind m k) P.
Proof. destruct m; cbn [jpost jbind]; auto. Qed.
Lemma jpost_guard {A} b (k : jres A) P : (b = true -> jpost k P) -> jpost (guard b k) P.
Proof. destruct b; cbn [guard jpost]; auto. Qed.
Lemma jpost_weaken {A} (m : jres A) (P Q : A -> Prop) : jpost m P -> (forall a, P a -> Q a) -> jpost m Q.
Proof. destruct m; cbn [jpost]; auto. Qed.
Lemma jpost_ok {A} (m : jres A) P a : jpost m P -> m = JOk a -> P a.
Proof. intros H ->. exact H. Qed.

Lemma jpost_aget {A B} (l : list A) i (k : A -> jres B) P : 0 <= i < Z.of_nat (length l) ->
  (forall a, aget l i = JOk a -> jpost (k a) P) -> jpost (jbind (aget l i) k) P.
Proof. intros H K. destruct (aget_in l i H) as [a E]. rewrite E. cbn [jbind]. apply K. exact E. Qed.

Lemma jpost_u16 {B} data i (k : Z -> jres B) P : 0 <= i -> i + 2 <= Z.of_nat (length data) ->
  (forall a b, aget data i = JOk a -> aget data (i + 1) = JOk b -> jpost (k (a * 256 + b)) P) -> jpost (jbind (u16 data i) k) P.
Proof.
  intros H1 H2 K. unfold u16. destruct (aget_in data i ltac:(lia)) as [a E]. destruct (aget_in data (i + 1) ltac:(lia)) as [b E2].
  rewrite E, E2. cbn [jbind]. auto.
Qed.

Lemma has_len_true data pos n : has_len data pos n = true -> pos + n <= Z.of_nat (length data).
Proof. unfold has_len. apply Z.leb_le. Qed.
Lemma between_true v a b : between v a b = true -> a <= v <= b.
Proof. unfold between. rewrite andb_true_iff, !Z.leb_le. auto. Qed.

Lemma sl_one {A} (data : list A) p a : aget data p = JOk a -> sl data p [a].
Proof.
  intros E. pose proof (aget_bound _ _ _ E). apply (sl_snoc data p [] a); [apply sl_nil; lia|]. cbn [length]. rewrite Z.add_0_r. exact E.
Qed.
Lemma sl_cons {A} (data : list A) p a l : aget data p = JOk a -> sl data (p + 1) l -> sl data p (a :: l).
Proof. intros E H. apply (sl_join data p [a] l); [apply sl_one; exact E|exact H]. Qed.

Lemma memZ_In x l : memZ x l = true <-> In x l.
Proof. unfold memZ. rewrite existsb_exists. split; [intros (y & H & E); apply Z.eqb_eq in E; subst; exact H|intros H; exists x; split; [exact H|apply Z.eqb_refl]]. Qed.
Lemma memZ_not x l : negb (memZ x l) = true -> ~ In x l.
Proof. intros H K. apply memZ_In in K. rewrite K in H. discriminate. Qed.

(** Bytes. *)
Lemma byte_id v : is_byte v -> byte v = v.
Proof. unfold is_byte, byte. intros. apply Z.mod_small. lia. Qed.
Lemma byte_hi a b : is_byte a -> is_byte b -> byte (Z.shiftr (a * 256 + b) 8) = a.
Proof. unfold is_byte, byte. intros. rewrite Z.shiftr_div_pow2 by lia. change (2 ^ 8) with 256. rewrite Z.div_add_l by lia. rewrite (Z.div_small b) by lia. rewrite Z.add_0_r. apply Z.mod_small. lia. Qed.
Lemma byte_lo a b : is_byte a -> is_byte b -> byte (a * 256 + b) = b.
Proof. unfold is_byte, byte. intros. rewrite Z.add_comm, Z.mod_add by lia. apply Z.mod_small. lia. Qed.
Lemma land_lo a b : is_byte a -> is_byte b -> Z.land (a * 256 + b) 255 = b.
Proof. intros. change 255 with (2 ^ 8 - 1). rewrite land_ones_mod by lia. exact (byte_lo a b H H0). Qed.
Lemma nib_hi c : is_byte c -> 0 <= Z.shiftr c 4 <= 15.
Proof. unfold is_byte. intros. rewrite Z.shiftr_div_pow2 by lia. change (2 ^ 4) with 16. split; [apply Z.div_pos; lia|]. assert (c / 16 < 16) by (apply Z.div_lt_upper_bound; lia). lia. Qed.
Lemma nib_lo c : 0 <= Z.land c 15 <= 15.
Proof. assert (E : Z.land c 15 = c mod 16) by (exact (land_ones_mod c 4 ltac:(lia))). rewrite E. pose proof (Z.mod_pos_bound c 16). lia. Qed.
Lemma nib_add c : is_byte c -> Z.shiftl (Z.shiftr c 4) 4 + Z.land c 15 = c.
Proof.
  intros. change 15 with (2 ^ 4 - 1). rewrite land_ones_mod by lia. rewrite Z.shiftl_mul_pow2, Z.shiftr_div_pow2 by lia.
  pose proof (Z.div_mod c (2 ^ 4)). lia.
Qed.
Lemma nib_or c : is_byte c -> Z.lor (Z.shiftl (Z.shiftr c 4) 4) (Z.land c 15) = c.
Proof.
  intros H. rewrite <- (nib_add c H) at 3. rewrite !Z.shiftl_mul_pow2 by lia. rewrite Z.lor_comm, Z.add_comm. apply lor_disjoint_add; [lia|].
  pose proof (nib_lo c). change (2 ^ 4) with 16. lia.
Qed.

Lemma buffer_exact n l : Z.of_nat (length l) = n -> buffer n l = JOk l.
Proof. intros <-. unfold buffer. rewrite Z.leb_refl, Nat2Z.id, Nat.sub_diag. cbn [repeat]. rewrite app_nil_r. reflexivity. Qed.

(** Frame header. *)
Definition fixed (quant : list qtable) (c c' : component) : Prop :=
  c_id c' = c_id c /\ c_h c' = c_h c /\ c_v c' = c_v c
  /\ exists q, aget quant (c_quant c') = JOk q /\ q_index q = c_quant c.

Lemma sof_comps_ok data : bytes data -> forall n pos seen mh mv, 0 <= pos -> pos + 3 * Z.of_nat n <= Z.of_nat (length data) -> 1 <= mh -> 1 <= mv ->
  jpost (sof_comps n data pos seen mh mv) (fun r => length (fst r) = n /\ 1 <= fst (snd r) /\ 1 <= snd (snd r)
    /\ Forall (fun c => 1 <= c_h c <= 15 /\ 1 <= c_v c <= 15) (fst r)
    /\ forall quant l', Forall2 (fixed quant) (fst r) l' -> exists out, sof_entries quant l' = JOk out /\ sl data pos out /\ length out = (3 * n)%nat).
Proof.
  intros Y. induction n as [|n IH]; intros pos seen mh mv Hp Hl H1 H2; cbn [sof_comps].
  - cbn [jpost fst snd length]. split; [reflexivity|]. split; [exact H1|]. split; [exact H2|]. split; [constructor|]. intros quant l' F. inversion F; subst. exists []. split; [reflexivity|]. split; [apply sl_nil; lia|reflexivity].
  - apply jpost_aget; [lia|]. intros id E1. apply jpost_guard. intros _.
    apply jpost_aget; [lia|]. intros f E2. cbv zeta. apply jpost_guard. intros G. apply andb_true_iff in G as [G1 G2]. apply between_true in G1, G2.
    apply jpost_aget; [lia|]. intros q E3.
    eapply jpost_bind; [apply (IH (pos + 3) (id :: seen) (Z.max mh (Z.shiftr f 4)) (Z.max mv (Z.land f 15))); lia|].
    intros [l [mh' mv']] (K1 & K2 & K3 & K4 & K5). cbn [fst snd] in *. cbn [jpost fst snd]. cbn [length].
    split; [lia|]. split; [exact K2|]. split; [exact K3|]. split; [constructor; [cbn [c_h c_v]; lia|exact K4]|].
    intros quant l' F. inversion F as [|c0 c' l0 l'' FX F' X1 X2]; subst. destruct FX as (F1 & F2 & F3 & q' & F4 & F5). cbn [c_id c_h c_v c_quant] in *.
    destruct (K5 quant l'' F') as (out & S1 & S2 & S3).
    pose proof (aget_byte _ _ _ Y E1) as B1. pose proof (aget_byte _ _ _ Y E2) as B2. pose proof (aget_byte _ _ _ Y E3) as B3.
    exists (id :: f :: q :: out). cbn [sof_entries]. pose proof (aget_bound _ _ _ F4) as BQ.
    destruct (Z.leb_spec (Z.of_nat (length quant)) (c_quant c')); [lia|]. rewrite F4. cbn [jbind]. rewrite S1. cbn [jbind].
    split. { rewrite F1, F2, F3, F5, nib_or by exact B2. rewrite !byte_id by assumption. reflexivity. }
    split; [|cbn [length]; lia].
    apply sl_cons; [exact E1|]. apply sl_cons; [exact E2|]. replace (pos + 1 + 1) with (pos + 2) by lia. apply sl_cons; [exact E3|].
    replace (pos + 2 + 1) with (pos + 3) by lia. exact S2.
Qed.

Definition sized (full : bool) (rows cols : Z) (c c' : component) : Prop :=
  c_id c' = c_id c /\ c_h c' = c_h c /\ c_v c' = c_v c /\ c_quant c' = c_quant c
  /\ c_wb c' = cols * c_h c /\ c_hb c' = rows * c_v c
  /\ c_coeffs c' = if full then repeat (repeat 0 64) (Z.to_nat (c_wb c' * c_hb c')) else [].

Lemma sof_blocks_ok full mh mv rows cols : forall l, jpost (sof_blocks full mh mv rows cols l) (Forall2 (sized full rows cols) l).
Proof.
  induction l as [|c l IH]; cbn [sof_blocks]; [constructor|].
  apply jpost_guard. intros _. cbv zeta. apply jpost_guard. intros _. eapply jpost_bind; [exact IH|]. intros r F. cbn [jpost]. constructor; [|exact F].
  repeat split.
Qed.

(** Initial values of the maximal sampling factors are 1 (jpeg_data.h:217-218). *)
Record sof_spec (full : bool) (w h mh mv : Z) (comps : list component) : Prop := {
  ss_w : 1 <= w <= 65535; ss_h : 1 <= h <= 65535; ss_mh : 1 <= mh; ss_mv : 1 <= mv;
  ss_n : (1 <= length comps <= 4)%nat;
  ss_c : Forall (fun c => 1 <= c_h c <= 15 /\ 1 <= c_v c <= 15 /\ c_wb c = div_ceil w (mh * 8) * c_h c /\ c_hb c = div_ceil h (mv * 8) * c_v c
           /\ c_coeffs c = if full then repeat (repeat 0 64) (Z.to_nat (c_wb c * c_hb c)) else []) comps }.

Lemma Forall2_len {A B} (R : A -> B -> Prop) a b : Forall2 R a b -> length a = length b.
Proof. intros F. induction F; cbn [length]; congruence. Qed.

Lemma read_sof_ok full data pos j : bytes data -> 2 <= pos -> 1 <= j_max_h j -> 1 <= j_max_v j ->
  jpost (read_sof full data pos j) (fun r => pos + 8 <= snd r <= Z.of_nat (length data) /\ j_width j = 0 /\ exists w h mh mv comps,
    fst r = with_frame j w h mh mv (div_ceil h (mv * 8)) (div_ceil w (mh * 8)) comps /\ sof_spec full w h mh mv comps
    /\ forall marker J, aget data (pos - 2) = JOk 255 -> aget data (pos - 1) = JOk marker -> j_width J = w -> j_height J = h ->
       Forall2 (fixed (j_quant J)) comps (j_comps J) ->
       exists out, write_sof J marker = JOk out /\ sl data (pos - 2) out /\ snd r = pos - 2 + Z.of_nat (length out)).
Proof.
  intros Y Hp Hmh Hmv. unfold read_sof. apply jpost_guard. intros G0. apply Z.eqb_eq in G0. apply jpost_guard. intros G1. apply has_len_true in G1.
  apply jpost_u16; [lia|lia|]. intros l1 l0 L1 L0. apply jpost_aget; [lia|]. intros prec EP.
  apply jpost_u16; [lia|lia|]. intros h1 h0 H1 H0. apply jpost_u16; [lia|lia|]. intros w1 w0 W1 W0.
  apply jpost_aget; [lia|]. intros n EN.
  apply jpost_guard. intros G2. apply between_true in G2. apply jpost_guard. intros G3. apply between_true in G3.
  apply jpost_guard. intros G4. apply between_true in G4. apply jpost_guard. intros G5. apply between_true in G5.
  apply jpost_guard. intros G6. apply has_len_true in G6.
  eapply jpost_bind; [apply (sof_comps_ok data Y (Z.to_nat n) (pos + 8) [] (j_max_h j) (j_max_v j)); lia|].
  intros [l [mh mv]] (K1 & K2 & K3 & K4 & K5). cbn [fst snd] in *. cbv zeta.
  eapply jpost_bind; [apply sof_blocks_ok|]. intros comps F. cbv beta in F. apply jpost_guard. intros G7. apply Z.eqb_eq in G7. cbn [jpost fst snd].
  split; [lia|]. split; [exact G0|].
  exists (w1 * 256 + w0), (h1 * 256 + h0), mh, mv, comps. split; [reflexivity|]. pose proof (Forall2_len _ _ _ F) as LF.
  split.
  { constructor; auto; try lia. clear - F K4. induction F as [|c c' l l' Hc F IH]; [constructor|]. constructor; [|apply IH; exact (Forall_inv_tail K4)].
    apply Forall_inv in K4. destruct Hc as (_ & C2 & C3 & _ & C5 & C6 & C7). rewrite C2, C3, C5, C6. rewrite C5, C6 in C7. repeat split; try lia. exact C7. }
  intros marker J M1 M2 EW EH FX.
  assert (FX2 : Forall2 (fixed (j_quant J)) l (j_comps J)).
  { clear - F FX. revert FX. generalize (j_comps J). induction F as [|c c' l l' Hc F IH]; intros m FX; inversion FX as [|a b ? ? FF FX']; subst; constructor; [|apply IH; exact FX'].
    destruct Hc as (C1 & C2 & C3 & C4 & _). destruct FF as (D1 & D2 & D3 & q & D4 & D5). repeat split; try congruence. exists q. split; congruence. }
  destruct (K5 _ _ FX2) as (out & S1 & S2 & S3).
  pose proof (Forall2_len _ _ _ FX) as LX.
  assert (EL : Z.of_nat (length (j_comps J)) = n) by lia.
  pose proof (aget_byte _ _ _ Y L1) as B1. pose proof (aget_byte _ _ _ Y L0) as B0.
  pose proof (aget_byte _ _ _ Y H1) as B3. pose proof (aget_byte _ _ _ Y H0) as B4.
  pose proof (aget_byte _ _ _ Y W1) as B5. pose proof (aget_byte _ _ _ Y W0) as B6. pose proof (aget_byte _ _ _ Y EN) as B7.
  unfold write_sof. rewrite EL, S1. cbn [jbind]. cbv zeta. replace (8 + 3 * n) with (l1 * 256 + l0) by lia. rewrite EW, EH.
  rewrite !byte_hi, !byte_lo, !land_lo, byte_id by assumption.
  rewrite buffer_exact by (rewrite app_length; cbn [length]; lia).
  eexists. split; [reflexivity|]. split; [|rewrite app_length; cbn [length]; lia].
  cbn [app]. apply sl_cons; [exact M1|]. replace (pos - 2 + 1) with (pos - 1) by lia. apply sl_cons; [exact M2|].
  replace (pos - 1 + 1) with pos by lia. apply sl_cons; [exact L1|]. apply sl_cons; [exact L0|].
  replace (pos + 1 + 1) with (pos + 2) by lia. apply sl_cons; [rewrite EP; f_equal; lia|].
  replace (pos + 2 + 1) with (pos + 3) by lia. apply sl_cons; [exact H1|]. apply sl_cons; [exact H0|].
  replace (pos + 3 + 1 + 1) with (pos + 5) by lia. apply sl_cons; [exact W1|]. apply sl_cons; [exact W0|].
  replace (pos + 5 + 1 + 1) with (pos + 7) by lia. apply sl_cons; [exact EN|].
  replace (pos + 7 + 1) with (pos + 8) by lia. exact S2.
Qed.

(** Scan header. *)
Lemma find_comp_ok id : forall l i found ci, find_comp id i l found = Some ci ->
  found = Some ci \/ exists n c, nth_error l n = Some c /\ ci = i + Z.of_nat n /\ c_id c = id.
Proof.
  induction l as [|c l IH]; intros i found ci E; cbn [find_comp] in E; [left; exact E|].
  apply IH in E as [E|(n & c' & E1 & E2 & E3)].
  - destruct (Z.eqb_spec (c_id c) id); [|left; exact E]. right. exists 0%nat, c. injection E as <-. split; [reflexivity|]. split; [lia|exact e].
  - right. exists (S n), c'. split; [exact E1|]. split; [lia|exact E3].
Qed.

Lemma sos_comps_ok data comps : bytes data -> forall n pos seen, 0 <= pos -> pos + 2 * Z.of_nat n <= Z.of_nat (length data) ->
  jpost (sos_comps n data pos seen comps) (fun l => length l = n
    /\ Forall (fun s => 0 <= cs_dc s <= 3 /\ 0 <= cs_ac s <= 3 /\ exists c, aget comps (cs_comp s) = JOk c /\ ~ In (c_id c) seen) l
    /\ NoDup (map cs_comp l)
    /\ forall cF, map c_id cF = map c_id comps -> exists out, sos_entries cF l = JOk out /\ sl data pos out /\ length out = (2 * n)%nat).
Proof.
  intros Y. induction n as [|n IH]; intros pos seen Hp Hl; cbn [sos_comps].
  - cbn [jpost map]. split; [reflexivity|]. split; [constructor|]. split; [constructor|]. intros cF _. exists []. split; [reflexivity|]. split; [apply sl_nil; lia|reflexivity].
  - apply jpost_aget; [lia|]. intros id E1. apply jpost_guard. intros G1. apply memZ_not in G1.
    destruct (find_comp id 0 comps None) as [ci|] eqn:EF; [|exact Logic.I].
    apply find_comp_ok in EF as [EF|(m & c & EF & EC & EI)]; [discriminate|].
    assert (EG : aget comps ci = JOk c) by (apply aget_Some; split; [lia|]; subst ci; rewrite Z.add_0_l, Nat2Z.id; exact EF).
    apply jpost_aget; [lia|]. intros b E2. cbv zeta. apply jpost_guard. intros G2. apply andb_true_iff in G2 as [G2 G3]. apply between_true in G2, G3.
    eapply jpost_bind; [apply (IH (pos + 2) (id :: seen)); lia|]. intros l (K1 & K2 & K3 & K4). cbn [jpost].
    split; [cbn [length]; lia|]. split.
    { constructor; [cbn [cs_dc cs_ac cs_comp]; split; [lia|]; split; [lia|]; exists c; split; [exact EG|]; rewrite EI; exact G1|].
      eapply Forall_impl; [|exact K2]. intros s (D1 & D2 & c' & D3 & D4). split; [exact D1|]. split; [exact D2|]. exists c'. split; [exact D3|]. intros D5. apply D4. right. exact D5. }
    split.
    { cbn [map cs_comp]. constructor; [|exact K3]. intros HI. apply in_map_iff in HI as (s & ES & HS). rewrite Forall_forall in K2. destruct (K2 s HS) as (_ & _ & c' & D3 & D4).
      rewrite ES, EG in D3. injection D3 as <-. apply D4. left. symmetry. exact EI. }
    intros cF HM. destruct (K4 cF HM) as (out & S1 & S2 & S3).
    pose proof (aget_byte _ _ _ Y E1) as B1. pose proof (aget_byte _ _ _ Y E2) as B2.
    exists (id :: b :: out). cbn [sos_entries cs_comp cs_dc cs_ac].
    assert (LF : length cF = length comps) by (apply (f_equal (@length _)) in HM; rewrite !map_length in HM; exact HM).
    pose proof (aget_bound _ _ _ EG) as BG. destruct (Z.leb_spec (Z.of_nat (length cF)) ci); [lia|].
    destruct (aget_in cF ci ltac:(lia)) as [c' EG']. rewrite EG', S1. cbn [jbind].
    assert (EI2 : c_id c' = id).
    { apply aget_Some in EG as [_ EG]. apply aget_Some in EG' as [_ EG']. apply (map_nth_error c_id) in EG, EG'. rewrite HM in EG'. congruence. }
    split; [rewrite EI2, nib_add by exact B2; rewrite !byte_id by assumption; reflexivity|].
    split; [|cbn [length]; lia]. apply sl_cons; [exact E1|]. apply sl_cons; [exact E2|]. replace (pos + 1 + 1) with (pos + 2) by lia. exact S2.
Qed.

Lemma read_sos_ok data pos j : bytes data -> 2 <= pos ->
  jpost (read_sos data pos j) (fun r => pos + 6 <= snd r <= Z.of_nat (length data)
    /\ scan_comps_ok (j_comps j) (si_comps (fst r))
    /\ Forall (fun c => 0 <= cs_dc c <= 3 /\ 0 <= cs_ac c <= 3) (si_comps (fst r))
    /\ 0 <= si_ss (fst r) <= si_se (fst r) /\ si_se (fst r) <= 63 /\ 0 <= si_ah (fst r) <= 15 /\ 0 <= si_al (fst r) <= 15
    /\ forall J rs zr, aget data (pos - 2) = JOk 255 -> aget data (pos - 1) = JOk 218 -> map c_id (j_comps J) = map c_id (j_comps j) ->
       exists out, write_sos J (mkSI (si_ss (fst r)) (si_se (fst r)) (si_ah (fst r)) (si_al (fst r)) (si_comps (fst r)) rs zr) = JOk out
         /\ sl data (pos - 2) out /\ snd r = pos - 2 + Z.of_nat (length out)).
Proof.
  intros Y Hp. unfold read_sos. apply jpost_guard. intros G1. apply has_len_true in G1.
  apply jpost_u16; [lia|lia|]. intros l1 l0 L1 L0. apply jpost_aget; [lia|]. intros n EN.
  apply jpost_guard. intros G2. apply between_true in G2. apply jpost_guard. intros G3. apply has_len_true in G3.
  eapply jpost_bind; [apply (sos_comps_ok data (j_comps j) Y (Z.to_nat n) (pos + 3) []); lia|].
  intros cs (K1 & K2 & K3 & K4). cbv zeta. apply jpost_guard. intros G4. apply has_len_true in G4.
  apply jpost_aget; [lia|]. intros ss ES. apply jpost_aget; [lia|]. intros se EE.
  apply jpost_guard. intros G5. apply between_true in G5. apply jpost_guard. intros G6. apply between_true in G6.
  apply jpost_aget; [lia|]. intros c EC. apply jpost_guard. intros G7. apply jpost_guard. intros G8. apply Z.eqb_eq in G8.
  cbn [jpost fst snd si_ss si_se si_ah si_al si_comps].
  pose proof (aget_byte _ _ _ Y L1) as B1. pose proof (aget_byte _ _ _ Y L0) as B0. pose proof (aget_byte _ _ _ Y EN) as B2.
  pose proof (aget_byte _ _ _ Y ES) as B3. pose proof (aget_byte _ _ _ Y EE) as B4. pose proof (aget_byte _ _ _ Y EC) as B5.
  split; [lia|]. split.
  { split; [destruct cs; [cbn [length] in K1; lia|discriminate]|]. split; [exact K3|]. eapply Forall_impl; [|exact K2]. intros s (_ & _ & c' & E & _). exact (aget_bound _ _ _ E). }
  split; [eapply Forall_impl; [|exact K2]; intros s (D1 & D2 & _); auto|].
  split; [lia|]. split; [lia|]. split; [apply nib_hi; exact B5|]. split; [apply nib_lo|].
  intros J rs zr M1 M2 HM. destruct (K4 _ HM) as (out & S1 & S2 & S3).
  unfold write_sos. cbn [si_comps si_ss si_se si_ah si_al]. replace (Z.of_nat (length cs)) with n by lia. rewrite S1. cbn [jbind]. cbv zeta.
  replace (6 + 2 * n) with (l1 * 256 + l0) by lia. rewrite byte_hi, byte_lo, nib_or, !byte_id by assumption.
  rewrite buffer_exact by (rewrite !app_length; cbn [length]; lia).
  eexists. split; [reflexivity|]. split; [|rewrite !app_length; cbn [length]; lia].
  cbn [app]. apply sl_cons; [exact M1|]. replace (pos - 2 + 1) with (pos - 1) by lia. apply sl_cons; [exact M2|].
  replace (pos - 1 + 1) with pos by lia. apply sl_cons; [exact L1|]. apply sl_cons; [exact L0|].
  replace (pos + 1 + 1) with (pos + 2) by lia. apply sl_cons; [exact EN|]. replace (pos + 2 + 1) with (pos + 3) by lia.
  apply sl_join; [exact S2|]. replace (pos + 3 + Z.of_nat (length out)) with (pos + 3 + 2 * n) by lia.
  apply sl_cons; [exact ES|]. apply sl_cons; [exact EE|]. replace (pos + 3 + 2 * n + 1 + 1) with (pos + 3 + 2 * n + 2) by lia. apply sl_one. exact EC.
Qed.
