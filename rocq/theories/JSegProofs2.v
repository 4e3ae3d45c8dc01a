(** Table segments, restart intervals and stored segments: what is read is written back. *)
From Coq Require Import ZArith List Bool Lia.
From Verif Require Import Base JpegModel LehmerModel JBitModel JWriteProofs JReadProofs JHuffModel JHuffProofs JHuffPair JScanModel JScanProofs1 JScanProofs2 JScanProofs3 JScanProofs4 JScanProofs5 JScanProofs6 JSegModel JSegProofs1.
Import ListNotations.
Local Open Scope Z_scope.

(** * Code lengths of a table *)
Fixpoint lens_of (i : nat) (cl : list Z) : list Z :=
  match cl with [] => [] | c :: r => repeat (Z.of_nat i) (Z.to_nat c) ++ lens_of (S i) r end.
Fixpoint wsum (i : Z) (cl : list Z) : Z :=
  match cl with [] => 0 | c :: r => c * 2 ^ (16 - i) + wsum (i + 1) r end.

Lemma lens_flat : forall cl pre,
  flat_map (fun l => repeat (Z.of_nat l) (Z.to_nat (nth l (pre ++ cl) 0))) (seq (length pre) (length cl)) = lens_of (length pre) cl.
Proof.
  induction cl as [|c cl IH]; intros pre; [reflexivity|]. cbn [length seq flat_map lens_of].
  rewrite app_nth2, Nat.sub_diag by lia. cbn [nth]. f_equal. specialize (IH (pre ++ [c])). rewrite app_length in IH. cbn [length] in IH.
  rewrite Nat.add_1_r, <- app_assoc in IH. exact IH.
Qed.

Lemma code_lens_of c0 cl : length cl = 16%nat -> code_lens (c0 :: cl) = lens_of 1 cl.
Proof. intros L. unfold code_lens. pose proof (lens_flat cl [c0]) as H. rewrite L in H. exact H. Qed.

Lemma kraft_repeat l n : kraft (repeat l n) = Z.of_nat n * wgt l.
Proof. induction n as [|n IH]; [reflexivity|]. change (repeat l (S n)) with ([l] ++ repeat l n). rewrite kraft_app, IH. unfold kraft. cbn [map sumZ fold_right]. lia. Qed.

Lemma kraft_lens : forall cl i, Forall (fun c => 0 <= c) cl -> kraft (lens_of i cl) = wsum (Z.of_nat i) cl.
Proof.
  induction cl as [|c cl IH]; intros i F; [reflexivity|]. cbn [lens_of wsum]. rewrite kraft_app, kraft_repeat, (IH _ (Forall_inv_tail F)).
  apply Forall_inv in F. unfold wgt. rewrite Z2Nat.id by exact F. f_equal. f_equal. lia.
Qed.

Lemma sumZ_cons a l : sumZ (a :: l) = a + sumZ l.
Proof. reflexivity. Qed.

Lemma lens_length : forall cl i, Forall (fun c => 0 <= c) cl -> Z.of_nat (length (lens_of i cl)) = sumZ cl.
Proof.
  induction cl as [|c cl IH]; intros i F; [reflexivity|]. cbn [lens_of]. rewrite app_length, repeat_length, sumZ_cons.
  pose proof (IH (S i) (Forall_inv_tail F)). apply Forall_inv in F. lia.
Qed.

Lemma wsum_upd : forall cl i k, (k < length cl)%nat -> wsum i (upd cl k (nth k cl 0 + 1)) = wsum i cl + 2 ^ (16 - (i + Z.of_nat k)).
Proof.
  induction cl as [|c cl IH]; intros i k H; cbn [length] in H; [lia|]. destruct k as [|k]; cbn [upd wsum nth].
  - rewrite Z.add_0_r. lia.
  - rewrite IH by lia. replace (i + 1 + Z.of_nat k) with (i + Z.of_nat (S k)) by lia. lia.
Qed.

Lemma sumZ_upd : forall cl k, (k < length cl)%nat -> sumZ (upd cl k (nth k cl 0 + 1)) = sumZ cl + 1.
Proof.
  induction cl as [|c cl IH]; intros k H; cbn [length] in H; [lia|]. destruct k as [|k]; cbn [upd nth]; rewrite !sumZ_cons; [lia|]. rewrite IH by lia. lia.
Qed.

Lemma max_len_spec : forall l i m, let d := max_len i l m in
  (d = m /\ Forall (fun c => c = 0) l) \/
  (exists k, (k < length l)%nat /\ d = i + Z.of_nat k /\ nth k l 0 <> 0 /\ forall k', (k < k')%nat -> nth k' l 0 = 0).
Proof.
  induction l as [|c l IH]; intros i m; cbn [max_len]; [left; auto|].
  destruct (IH (i + 1) (if c =? 0 then m else i)) as [[E F]|(k & H1 & H2 & H3 & H4)].
  - rewrite E. destruct (Z.eqb_spec c 0) as [->|N]; [left; auto|]. right. exists 0%nat. cbn [length nth]. split; [lia|]. split; [lia|]. split; [exact N|].
    intros [|k'] Hk; [lia|]. rewrite Forall_forall in F. destruct (nth_in_or_default k' l 0) as [H|H]; [apply F; exact H|exact H].
  - right. exists (S k). cbn [length nth]. split; [lia|]. split; [lia|]. split; [exact H3|]. intros [|k'] Hk; [lia|]. apply H4. lia.
Qed.

Lemma max_len_unique : forall l i m k, (k < length l)%nat -> nth k l 0 <> 0 -> (forall k', (k < k')%nat -> nth k' l 0 = 0) -> max_len i l m = i + Z.of_nat k.
Proof.
  intros l i m k H1 H2 H3. destruct (max_len_spec l i m) as [[E F]|(k2 & K1 & K2 & K3 & K4)].
  - exfalso. apply H2. rewrite Forall_forall in F. apply F. apply nth_In. exact H1.
  - rewrite K2. destruct (lt_eq_lt_dec k k2) as [[L|L]|L]; [exfalso; apply K3; apply H3; exact L|lia|exfalso; apply H2; apply K4; exact L].
Qed.

Lemma map_nth_seq {A} (d : A) : forall l, map (fun i => nth i l d) (seq 0 (length l)) = l.
Proof. induction l as [|a l IH]; [reflexivity|]. cbn [length seq map nth]. f_equal. rewrite <- seq_shift, map_map. exact IH. Qed.

Lemma nth_upd_if' {A} (d : A) l i k v : (i < length l)%nat -> nth k (upd l i v) d = if (i =? k)%nat then v else nth k l d.
Proof. intros H. destruct (Nat.eqb_spec i k) as [->|N]; [apply nth_upd_same; exact H|apply nth_upd_other; auto]. Qed.

(** The table with the extra symbol and what the writer makes of it. *)
Lemma extra_symbol cl d : length cl = 16%nat -> Forall (fun c => is_byte c) cl -> d = max_len 1 cl 1 ->
  1 <= d <= 16 /\ max_len 0 (0 :: upd cl (Z.to_nat d - 1) (nth (Z.to_nat d - 1) cl 0 + 1)) 0 = d
  /\ map (fun i => let c := nth i (0 :: upd cl (Z.to_nat d - 1) (nth (Z.to_nat d - 1) cl 0 + 1)) 0 in byte (if Z.of_nat i =? d then c - 1 else c)) (seq 1 16) = cl.
Proof.
  intros L F E.
  assert (H : 1 <= d <= 16 /\ (forall k', (Z.to_nat d - 1 < k')%nat -> nth k' cl 0 = 0)).
  { destruct (max_len_spec cl 1 1) as [[E2 F2]|(k & H1 & H2 & H3 & H4)].
    - rewrite <- E in E2. split; [lia|]. intros k' _. rewrite Forall_forall in F2. destruct (nth_in_or_default k' cl 0) as [H|H]; [apply F2; exact H|exact H].
    - rewrite <- E in H2. split; [lia|]. intros k' Hk. apply H4. lia. }
  destruct H as [H1 H2]. split; [exact H1|]. set (k := (Z.to_nat d - 1)%nat) in *. assert (Hk : (k < 16)%nat) by lia.
  assert (B : forall i, is_byte (nth i cl 0)).
  { intros i. destruct (nth_in_or_default i cl 0) as [H|H]; [rewrite Forall_forall in F; apply F; exact H|rewrite H; unfold is_byte; lia]. }
  split.
  - transitivity (0 + Z.of_nat (S k)); [apply max_len_unique|lia].
    + cbn [length]. rewrite upd_length. lia.
    + cbn [nth]. rewrite nth_upd_if' by lia. rewrite Nat.eqb_refl. specialize (B k). unfold is_byte in B. lia.
    + intros [|k'] Hk'; [lia|]. cbn [nth]. rewrite nth_upd_if' by lia. destruct (Nat.eqb_spec k k'); [lia|]. apply H2. lia.
  - transitivity (map (fun i => nth i cl 0) (seq 0 (length cl))); [|apply map_nth_seq]. rewrite L. rewrite <- seq_shift, map_map. apply map_ext_in. intros i Hi. apply in_seq in Hi. cbv zeta. cbn [nth].
    rewrite nth_upd_if' by lia. specialize (B i).
    destruct (Z.eqb_spec (Z.of_nat (S i)) d), (Nat.eqb_spec k i); try lia.
    + subst i. rewrite byte_id; [lia|]. replace (nth k cl 0 + 1 - 1) with (nth k cl 0) by lia. exact B.
    + apply byte_id. exact B.
Qed.

Lemma dht_counts_ok data : bytes data -> forall n pos i total depth space, 0 <= pos -> pos + Z.of_nat n <= Z.of_nat (length data) ->
  jpost (dht_counts n data pos i total depth space) (fun r => length (fst r) = n /\ sl data pos (fst r)
    /\ fst (snd r) = total + sumZ (fst r) /\ fst (snd (snd r)) = max_len i (fst r) depth /\ snd (snd (snd r)) = space - wsum i (fst r)).
Proof.
  intros Y. induction n as [|n IH]; intros pos i total depth space Hp Hl; cbn [dht_counts].
  - cbn [jpost fst snd length max_len wsum sumZ fold_right]. split; [reflexivity|]. split; [apply sl_nil; lia|]. cbn. lia.
  - apply jpost_aget; [lia|]. intros c E. eapply jpost_bind; [apply IH; lia|]. intros [l [t [d s]]] (K1 & K2 & K3 & K4 & K5). cbn [fst snd] in *. cbn [jpost fst snd].
    split; [cbn [length]; lia|]. split; [apply sl_cons; auto|]. rewrite sumZ_cons. cbn [max_len wsum]. split; [lia|]. split; [exact K4|]. lia.
Qed.

Lemma dht_values_ok data is_ac : bytes data -> forall n pos seen, 0 <= pos -> pos + Z.of_nat n <= Z.of_nat (length data) ->
  jpost (dht_values n data pos is_ac seen) (fun l => length l = n /\ sl data pos l /\ NoDup l /\ forall v, In v l -> ~ In v seen).
Proof.
  intros Y. induction n as [|n IH]; intros pos seen Hp Hl; cbn [dht_values].
  - cbn [jpost]. split; [reflexivity|]. split; [apply sl_nil; lia|]. split; [constructor|]. intros v [].
  - apply jpost_aget; [lia|]. intros v E. apply jpost_guard. intros _. apply jpost_guard. intros G. apply memZ_not in G.
    eapply jpost_bind; [apply IH; lia|]. intros l (K1 & K2 & K3 & K4). cbn [jpost].
    split; [cbn [length]; lia|]. split; [apply sl_cons; auto|]. split; [constructor; [|exact K3]; intros HI; apply (K4 v HI); left; reflexivity|].
    intros w [<-|HI]; [exact G|]. intros HS. apply (K4 w HI). right. exact HS.
Qed.

(** * Tables of the reader against those of the writer *)
Definition tabs4 (luts : list (list (Z * Z))) (tabs : list codetab) : Prop :=
  length tabs = 4%nat /\ forall i, 0 <= i <= 3 -> exists lut tab, aget luts i = JOk lut /\ aget tabs i = JOk tab
    /\ slot_ok lut tab /\ length (fst tab) = 256%nat /\ length (snd tab) = 256%nat.
Definition luts4 (luts : list (list (Z * Z))) : Prop := length luts = 4%nat /\ Forall lut_sane luts.
Definition paired (t : tables) (w : wtables) : Prop := tabs4 (tb_dc t) (wt_dc w) /\ tabs4 (tb_ac t) (wt_ac w).
Definition saneT (t : tables) : Prop := luts4 (tb_dc t) /\ luts4 (tb_ac t).

Lemma luts4_upd luts i lut : luts4 luts -> lut_sane lut -> luts4 (upd luts i lut).
Proof. intros [L F] S. split; [rewrite upd_length; exact L|]. apply Forall_upd; auto. Qed.

Lemma tabs4_upd luts tabs i lut tab : luts4 luts -> tabs4 luts tabs -> 0 <= i <= 3 -> slot_ok lut tab -> length (fst tab) = 256%nat -> length (snd tab) = 256%nat ->
  tabs4 (upd luts (Z.to_nat i) lut) (upd tabs (Z.to_nat i) tab).
Proof.
  intros [L1 _] [L2 P] Hi S La Lb. split; [rewrite upd_length; exact L2|]. intros k Hk. destruct (Z.eq_dec i k) as [<-|N].
  - exists lut, tab. rewrite !aget_upd_same by lia. auto.
  - rewrite !aget_upd_other by lia. apply P. exact Hk.
Qed.

Lemma aset_good {A} (l : list A) i v : 0 <= i < Z.of_nat (length l) -> aset l i v = JOk (upd l (Z.to_nat i) v).
Proof. apply aset_ok. Qed.

Lemma prepare_sane space lut : lut_sane lut -> lut_sane (prepare_lut space lut).
Proof. intros S. unfold prepare_lut. destruct (_ && _); [split; [apply repeat_length|reflexivity]|exact S]. Qed.

Lemma slice_all (vl r : list Z) : slice (vl ++ r) 0 (Z.of_nat (length vl)) = JOk vl.
Proof.
  unfold slice. rewrite app_length. destruct (Z.leb_spec 0 0); [|lia]. destruct (Z.leb_spec 0 (Z.of_nat (length vl))); [|lia].
  destruct (Z.leb_spec (0 + Z.of_nat (length vl)) (Z.of_nat (length vl + length r))); [|lia]. cbn [andb]. change (Z.to_nat 0) with 0%nat. cbn [skipn].
  rewrite Nat2Z.id, firstn_app_exact. reflexivity.
Qed.

Lemma map_byte_id l : bytes l -> map byte l = l.
Proof. intros Y. induction Y as [|b l Hb Y IH]; [reflexivity|]. cbn [map]. rewrite IH, byte_id by exact Hb. reflexivity. Qed.

Opaque build_lut build_codes.

Lemma upd_end {A} (vl : list A) x r v : upd (vl ++ x :: r) (length vl) v = vl ++ v :: r.
Proof. induction vl as [|a vl IH]; cbn [app length upd]; [reflexivity|]. rewrite IH. reflexivity. Qed.

Lemma dht_table_ok full data fin pos t : bytes data -> 0 <= pos -> saneT t ->
  jpost (dht_table full data fin pos t) (fun r => pos + 17 <= snd r <= Z.of_nat (length data) /\ saneT (fst r)
    /\ exists h, tb_huff (fst r) = tb_huff t ++ [h] /\ hc_last h = (snd r =? fin)
       /\ (full = true -> forall w, paired t w -> exists b w', dht_entry h w = JOk (b, w') /\ paired (fst r) w'
            /\ sl data pos b /\ snd r = pos + Z.of_nat (length b) /\ 16 + sumZ (hc_counts h) = Z.of_nat (length b))).
Proof.
  intros Y Hp [SD SA]. unfold dht_table. apply jpost_guard. intros G1. apply has_len_true in G1.
  apply jpost_aget; [lia|]. intros slot ES. cbv zeta. set (is_ac := negb (Z.land slot 16 =? 0)). set (idx := if is_ac then slot - 16 else slot).
  apply jpost_guard. intros G2. apply between_true in G2.
  set (luts := if is_ac then tb_ac t else tb_dc t).
  assert (SL : luts4 luts) by (unfold luts; destruct is_ac; assumption).
  apply jpost_aget; [destruct SL; lia|]. intros lut EL.
  assert (LS : lut_sane lut) by (destruct SL as [_ F]; rewrite Forall_forall in F; apply F; eapply aget_In; exact EL).
  eapply jpost_bind; [apply (dht_counts_ok data Y 16 (pos + 1) 1 0 1 65536); lia|].
  intros [cl [total [depth space]]] (K1 & K2 & K3 & K4 & K5). cbn [fst snd] in K1, K2, K3, K4, K5. rewrite Z.add_0_l in K3.
  apply jpost_guard. intros G3. apply between_true in G3. apply jpost_guard. intros G4. apply has_len_true in G4.
  eapply jpost_bind; [apply (dht_values_ok data is_ac Y (Z.to_nat total) (pos + 17) []); lia|].
  intros vl (V1 & V2 & V3 & _).
  pose proof (sl_bytes _ _ _ Y K2) as Ycl. pose proof (sl_bytes _ _ _ Y V2) as Yvl.
  destruct (extra_symbol cl depth K1 Ycl K4) as (D1 & D2 & D3).
  assert (Lv : (length vl <= 256)%nat) by (rewrite V1; destruct is_ac; lia).
  rewrite (aget_nth (0 :: cl) depth) by (cbn [length]; lia). cbn [jbind].
  rewrite aset_good by (cbn [length]; lia). cbn [jbind].
  replace (257 - length vl)%nat with (S (256 - length vl)) by lia. cbn [repeat].
  rewrite aset_good by (rewrite app_length; cbn [length]; lia). cbn [jbind].
  rewrite <- V1. replace (Z.to_nat total) with (length vl) by lia. rewrite upd_end.
  assert (ECNT : upd (0 :: cl) (Z.to_nat depth) (nth (Z.to_nat depth) (0 :: cl) 0 + 1) = 0 :: upd cl (Z.to_nat depth - 1) (nth (Z.to_nat depth - 1) cl 0 + 1)).
  { replace (Z.to_nat depth) with (S (Z.to_nat depth - 1)) by lia. cbn [upd nth]. replace (S (Z.to_nat depth - 1) - 1)%nat with (Z.to_nat depth - 1)%nat by lia. reflexivity. }
  rewrite ECNT. set (cl' := upd cl (Z.to_nat depth - 1) (nth (Z.to_nat depth - 1) cl 0 + 1)) in *.
  set (values := vl ++ 256 :: repeat 0 (256 - length vl)).
  assert (NN : Forall (fun c => 0 <= c) cl) by (eapply Forall_impl; [|exact Ycl]; unfold is_byte; intros; lia).
  assert (B0 : 0 <= nth (Z.to_nat depth - 1) cl 0).
  { destruct (nth_in_or_default (Z.to_nat depth - 1) cl 0) as [H|H]; [rewrite Forall_forall in NN; apply NN; exact H|rewrite H; lia]. }
  assert (NN' : Forall (fun c => 0 <= c) cl') by (apply Forall_upd; [exact NN|lia]).
  assert (L' : length cl' = 16%nat) by (unfold cl'; rewrite upd_length; exact K1).
  assert (WS : wsum 1 cl' = wsum 1 cl + 2 ^ (16 - depth)).
  { unfold cl'. rewrite wsum_upd by lia. f_equal. f_equal. lia. }
  assert (SS : sumZ cl' = sumZ cl + 1) by (apply sumZ_upd; lia).
  assert (EK : kraft (code_lens (0 :: cl')) = wsum 1 cl') by (rewrite code_lens_of by exact L'; apply (kraft_lens cl' 1 NN')).
  assert (ELn : Z.of_nat (length (code_lens (0 :: cl'))) = total + 1) by (rewrite code_lens_of by exact L'; rewrite lens_length by exact NN'; lia).
  apply jpost_guard. intros G5. apply Z.leb_le in G5.
  assert (HV : huff_valid (0 :: cl') values).
  { assert (EN : Nat.sub (length (code_lens (0 :: cl'))) 1 = length vl) by lia.
    constructor.
    - cbn [length]. lia.
    - constructor; [lia|exact NN'].
    - lia.
    - unfold values. rewrite app_length. cbn [length]. rewrite repeat_length. lia.
    - rewrite EK. lia.
    - rewrite EN. unfold values. rewrite firstn_app_exact. exact Yvl.
    - rewrite EN. unfold values. rewrite firstn_app_exact. exact V3.
    - rewrite EN. unfold values. rewrite app_nth2, Nat.sub_diag by lia. reflexivity. }
  assert (ESp : space - 2 ^ (16 - depth) = 65536 - kraft (code_lens (0 :: cl'))) by lia.
  rewrite ESp.
  set (pos' := pos + 17 + total).
  assert (BL : exists lut', (if full then build_lut (0 :: cl') values (prepare_lut (65536 - kraft (code_lens (0 :: cl'))) lut) else JOk (prepare_lut (65536 - kraft (code_lens (0 :: cl'))) lut)) = JOk lut' /\ lut_sane lut'
    /\ (full = true -> forall tab, length (fst tab) = 256%nat -> length (snd tab) = 256%nat -> exists tab', build_codes (mkHC (0 :: cl') values slot (pos' =? fin)) tab = JOk tab' /\ length (fst tab') = 256%nat /\ length (snd tab') = 256%nat /\ slot_ok lut' tab')).
  { destruct full.
    - destruct (huff_pair (0 :: cl') values slot (pos' =? fin) lut (repeat 0 256) (repeat 0 256) HV LS (repeat_length _ _) (repeat_length _ _)) as (lut' & d' & k' & E1 & _ & _ & _ & [S1 _] & _).
      exists lut'. split; [exact E1|]. split; [exact S1|]. intros _ [d k] Ld Lk.
      destruct (huff_pair (0 :: cl') values slot (pos' =? fin) lut d k HV LS Ld Lk) as (lut2 & d2 & k2 & E2 & E3 & L1 & L2 & S2 & _).
      rewrite E1 in E2. injection E2 as <-. exists (d2, k2). auto.
    - eexists. split; [reflexivity|]. split; [apply prepare_sane; exact LS|]. discriminate. }
  destruct BL as (lut' & EB & LS' & PR). rewrite EB. cbn [jbind]. rewrite aset_good by (destruct SL; lia). cbn [jbind jpost fst snd tb_huff tb_dc tb_ac].
  pose proof (luts4_upd luts (Z.to_nat idx) lut' SL LS') as SL'.
  split; [lia|]. split; [split; cbn [tb_dc tb_ac]; destruct is_ac; assumption|].
  eexists. split; [reflexivity|]. split; [reflexivity|]. intros Hf w PW.
  set (tabs := if is_ac then wt_ac w else wt_dc w).
  assert (TP : tabs4 luts tabs) by (unfold luts, tabs; destruct PW; destruct is_ac; assumption).
  pose proof TP as [LT TP2]. destruct (TP2 idx ltac:(lia)) as (lut0 & tab & T1 & T2 & T3 & T4 & T5).
  destruct (PR Hf tab T4 T5) as (tab' & P1 & P2 & P3 & P4).
  exists (slot :: cl ++ vl). unfold dht_entry. cbn [hc_slot hc_counts hc_values]. fold is_ac. fold idx. fold tabs. rewrite T2. cbn [jbind].
  rewrite P1. cbn [jbind]. rewrite aset_good by lia. cbn [jbind]. rewrite sumZ_cons, Z.add_0_l, SS.
  replace (sumZ cl + 1 - 1) with (Z.of_nat (length vl)) by lia. unfold values at 1. rewrite slice_all. cbn [jbind]. rewrite D2.
  eexists. split.
  { cbv zeta in D3. rewrite D3, map_byte_id by exact Yvl. rewrite byte_id by exact (aget_byte _ _ _ Y ES). reflexivity. }
  split. { pose proof (tabs4_upd luts tabs idx lut' tab' SL TP ltac:(lia) P4 P2 P3) as TU.
    split; cbn [wt_dc wt_ac tb_dc tb_ac]; destruct is_ac; try exact TU; apply PW. }
  split.
  { apply sl_cons; [exact ES|]. apply sl_join; [exact K2|]. replace (pos + 1 + Z.of_nat (length cl)) with (pos + 17) by lia. exact V2. }
  cbn [length]. rewrite app_length. unfold pos'. split; lia.
Qed.

Lemma dht_loop_ok full data fin : bytes data -> forall fuel pos t, 0 <= pos <= Z.of_nat (length data) -> Z.of_nat (length data) < pos + Z.of_nat fuel -> saneT t ->
  jpost (dht_loop fuel full data fin pos t) (fun r => pos <= snd r <= Z.of_nat (length data) /\ saneT (fst r)
    /\ exists hs, tb_huff (fst r) = tb_huff t ++ hs /\ (fin <= pos -> hs = [] /\ fst r = t)
       /\ (full = true -> pos < fin -> snd r = fin -> forall w rest, paired t w -> exists b w', dht_entries (hs ++ rest) w = JOk (b, (rest, w')) /\ paired (fst r) w'
            /\ sl data pos b /\ snd r = pos + Z.of_nat (length b) /\ dht_len (hs ++ rest) = Z.of_nat (length b))).
Proof.
  intros Y. induction fuel as [|fuel IH]; intros pos t Hp Hf ST; [lia|]. cbn [dht_loop]. destruct (Z.ltb_spec pos fin) as [Hl|Hl].
  - eapply jpost_bind; [apply (dht_table_ok full data fin pos t Y ltac:(lia) ST)|]. intros [t1 pos1] (P1 & S1 & h & H1 & H2 & H3). cbn [fst snd] in *.
    eapply jpost_weaken; [apply (IH pos1 t1); [lia|lia|exact S1]|]. intros [t2 pos2] (Q1 & S2 & hs & Q2 & Q4 & Q3). cbn [fst snd] in *.
    split; [lia|]. split; [exact S2|]. exists (h :: hs). split; [rewrite Q2, H1, <- app_assoc; reflexivity|]. split; [lia|].
    intros Ff _ EF w rest PW. destruct (H3 Ff w PW) as (b & w1 & E1 & PW1 & SL1 & LB & LN).
    cbn [app dht_entries dht_len]. rewrite E1. cbn [jbind]. rewrite H2. destruct (Z.eqb_spec pos1 fin) as [E|N].
    + destruct (Q4 ltac:(lia)) as [-> ->]. exists b, w1. split; [reflexivity|]. split; [exact PW1|]. split; [exact SL1|]. split; lia.
    + destruct (Q3 Ff ltac:(lia) EF w1 rest PW1) as (b2 & w2 & E2 & PW2 & SL2 & LB2 & LN2). rewrite E2. cbn [jbind].
      exists (b ++ b2), w2. rewrite app_length. split; [reflexivity|]. split; [exact PW2|]. split; [apply sl_join; [exact SL1|rewrite <- LB; exact SL2]|]. split; lia.
  - cbn [jpost fst snd]. split; [lia|]. split; [exact ST|]. exists []. rewrite app_nil_r. split; [reflexivity|]. split; [auto|]. intros _ K. lia.
Qed.

Lemma read_dht_ok full data pos t : bytes data -> 2 <= pos -> saneT t ->
  jpost (read_dht full data pos t) (fun r => pos + 2 <= snd r <= Z.of_nat (length data) /\ saneT (fst r)
    /\ exists hs, tb_huff (fst r) = tb_huff t ++ hs
       /\ (full = true -> aget data (pos - 2) = JOk 255 -> aget data (pos - 1) = JOk 196 -> forall w rest, paired t w ->
           exists out w', write_dht (hs ++ rest) w = JOk (out, (rest, w')) /\ paired (fst r) w'
            /\ sl data (pos - 2) out /\ snd r = pos - 2 + Z.of_nat (length out))).
Proof.
  intros Y Hp ST. unfold read_dht. apply jpost_guard. intros G1. apply has_len_true in G1.
  apply jpost_u16; [lia|lia|]. intros l1 l0 L1 L0. apply jpost_guard. intros G2. apply negb_true_iff, Z.eqb_neq in G2.
  eapply jpost_bind; [apply (dht_loop_ok full data (pos + (l1 * 256 + l0)) Y (S (length data)) (pos + 2) t); [lia|lia|exact ST]|].
  intros [t' pos'] (Q1 & S2 & hs & Q2 & Q4 & Q3). cbn [fst snd] in *. apply jpost_guard. intros G3. apply Z.eqb_eq in G3. cbn [jpost fst snd].
  split; [lia|]. split; [exact S2|]. exists hs. split; [exact Q2|]. intros Ff M1 M2 w rest PW.
  destruct (Q3 Ff ltac:(lia) ltac:(lia) w rest PW) as (b & w' & E1 & PW' & SL1 & LB & LN).
  unfold write_dht. rewrite E1. cbn [jbind]. rewrite LN. replace (2 + Z.of_nat (length b)) with (l1 * 256 + l0) by lia.
  rewrite byte_hi, byte_lo by (eapply aget_byte; eauto). rewrite buffer_exact by (cbn [app length]; lia). cbn [jbind].
  eexists _, w'. split; [reflexivity|]. split; [exact PW'|]. split; [|cbn [app length]; lia].
  cbn [app]. apply sl_cons; [exact M1|]. replace (pos - 2 + 1) with (pos - 1) by lia. apply sl_cons; [exact M2|].
  replace (pos - 1 + 1) with pos by lia. apply sl_cons; [exact L1|]. apply sl_cons; [exact L0|]. replace (pos + 1 + 1) with (pos + 2) by lia. exact SL1.
Qed.

(** * Quantization tables *)
Lemma dqt_values_ok data prec : bytes data -> prec = 0 \/ prec = 1 -> forall n i pos values, 0 <= i -> i + Z.of_nat n = 64 -> 0 <= pos ->
  pos + Z.of_nat n * (prec + 1) <= Z.of_nat (length data) -> length values = 64%nat ->
  jpost (dqt_values n data prec pos i values) (fun vs => length vs = 64%nat
    /\ (forall k, 0 <= k < i -> aget vs (nat_at k) = aget values (nat_at k))
    /\ forall q, q_values q = vs -> q_precision q = prec -> exists out, dqt_bytes n q i = JOk out /\ sl data pos out /\ Z.of_nat (length out) = Z.of_nat n * (prec + 1)).
Proof.
  intros Y HP. induction n as [|n IH]; intros i pos values Hi Hn Hp Hl LV; cbn [dqt_values].
  - cbn [jpost]. split; [exact LV|]. split; [auto|]. intros q _ _. exists []. split; [reflexivity|]. split; [apply sl_nil; lia|reflexivity].
  - pose proof (nat_at_range i ltac:(lia)) as NR.
    assert (K : forall v bs, sl data pos bs -> Z.of_nat (length bs) = prec + 1 -> (if prec =? 0 then [] else [byte (Z.shiftr v 8)]) ++ [Z.land v 255] = bs ->
      jpost (guard (between v 1 65535) (let* at_ := aget kNaturalOrder i in let* values := aset values at_ v in
        dqt_values n data prec (pos + (if prec =? 0 then 1 else 2)) (i + 1) values)) (fun vs => length vs = 64%nat
        /\ (forall k, 0 <= k < i -> aget vs (nat_at k) = aget values (nat_at k))
        /\ forall q, q_values q = vs -> q_precision q = prec -> exists out, dqt_bytes (S n) q i = JOk out /\ sl data pos out /\ Z.of_nat (length out) = Z.of_nat (S n) * (prec + 1))).
    { intros v bs SB LB EB. apply jpost_guard. intros _. rewrite nat_at_get by lia. cbn [jbind]. rewrite aset_good by lia. cbn [jbind].
      replace (pos + (if prec =? 0 then 1 else 2)) with (pos + (prec + 1)) by (destruct HP as [->| ->]; reflexivity).
      eapply jpost_weaken; [apply (IH (i + 1) (pos + (prec + 1)) (upd values (Z.to_nat (nat_at i)) v)); [lia|lia|destruct HP as [->| ->]; lia|destruct HP as [->| ->]; lia|rewrite upd_length; exact LV]|].
      intros vs (V1 & V2 & V3). split; [exact V1|]. split.
      - intros k Hk. rewrite V2 by lia. apply aget_upd_other; [lia|]. intros E. apply nat_at_inj in E; lia.
      - intros q Q1 Q2. destruct (V3 q Q1 Q2) as (out & E1 & S1 & L1). exists (bs ++ out). cbn [dqt_bytes]. rewrite nat_at_get by lia. cbn [jbind].
        rewrite Q1, (V2 i ltac:(lia)), aget_upd_same by lia. cbn [jbind]. rewrite E1. cbn [jbind]. rewrite Q2.
        split; [f_equal; rewrite <- EB, <- app_assoc; reflexivity|]. split; [apply sl_join; [exact SB|rewrite LB; exact S1]|]. rewrite app_length. lia. }
    destruct HP as [-> | ->].
    + change (0 =? 0) with true in K |- *. cbv iota in K |- *. apply jpost_aget; [lia|]. intros v E. apply (K v [v]); [apply sl_one; exact E|reflexivity|].
      cbn [app]. f_equal. change 255 with (2 ^ 8 - 1). rewrite land_ones_mod by lia. exact (byte_id v (aget_byte _ _ _ Y E)).
    + change (1 =? 0) with false in K |- *. cbv iota in K |- *. apply jpost_u16; [lia|lia|]. intros a b EA EB.
      apply (K (a * 256 + b) [a; b]); [apply sl_cons; [exact EA|apply sl_one; exact EB]|reflexivity|].
      rewrite byte_hi, land_lo by (eapply aget_byte; eauto). reflexivity.
Qed.

Lemma dqt_loop_ok data fin : bytes data -> forall fuel pos q, 0 <= pos <= Z.of_nat (length data) -> 4 < Z.of_nat (length q) + Z.of_nat fuel -> (length q <= 4)%nat ->
  jpost (dqt_loop fuel data fin pos q) (fun r => pos <= snd r <= Z.of_nat (length data) /\ (length (fst r) <= 4)%nat
    /\ exists qs, fst r = q ++ qs /\ Forall (fun t => 0 <= q_index t <= 3) qs /\ (fin <= pos -> qs = [])
       /\ (pos < fin -> snd r = fin -> forall rest, exists b, dqt_entries (qs ++ rest) = JOk (b, rest)
            /\ sl data pos b /\ snd r = pos + Z.of_nat (length b) /\ dqt_len (qs ++ rest) = Z.of_nat (length b))).
Proof.
  intros Y. induction fuel as [|fuel IH]; intros pos q Hp Hf Hq; [lia|]. cbn [dqt_loop].
  destruct (Z.ltb_spec pos fin) as [Hl|Hl]; cbn [andb].
  2:{ cbn [jpost fst snd]. split; [lia|]. split; [exact Hq|]. exists []. rewrite app_nil_r. split; [reflexivity|]. split; [constructor|]. split; [auto|lia]. }
  destruct (Z.ltb_spec (Z.of_nat (length q)) 4) as [H4|H4].
  2:{ cbn [jpost fst snd]. split; [lia|]. split; [exact Hq|]. exists []. rewrite app_nil_r. split; [reflexivity|]. split; [constructor|]. split; [auto|lia]. }
  apply jpost_guard. intros G1. apply has_len_true in G1. apply jpost_aget; [lia|]. intros b0 E0. cbv zeta.
  apply jpost_guard. intros G2. apply between_true in G2. apply jpost_guard. intros G3. apply between_true in G3.
  apply jpost_guard. intros G4. apply has_len_true in G4. set (prec := Z.shiftr b0 4) in *.
  assert (HP : prec = 0 \/ prec = 1) by lia.
  eapply jpost_bind; [apply (dqt_values_ok data prec Y HP 64 0 (pos + 1) (repeat 0 64)); [lia|reflexivity|lia|lia|reflexivity]|].
  intros vs (V1 & _ & V3). set (pos1 := pos + 1 + (prec + 1) * 64). set (t := mkQT vs prec (Z.land b0 15) (pos1 =? fin)).
  eapply jpost_weaken; [apply (IH pos1 (q ++ [t])); [unfold pos1; lia|rewrite app_length; cbn [length]; lia|rewrite app_length; cbn [length]; lia]|].
  intros [q2 pos2] (Q1 & Q0 & qs & Q2 & Q5 & Q4 & Q3). cbn [fst snd] in *. split; [unfold pos1 in *; lia|]. split; [exact Q0|].
  exists (t :: qs). split; [rewrite Q2, <- app_assoc; reflexivity|]. split; [constructor; [cbn [t q_index]; lia|exact Q5]|]. split; [lia|]. intros _ EF rest.
  destruct (V3 t eq_refl eq_refl) as (vb & E1 & S1 & L1). cbn [app dqt_entries dqt_len]. rewrite E1. cbn [jbind].
  change (q_last t) with (pos1 =? fin). change (q_precision t) with prec. change (q_index t) with (Z.land b0 15).
  pose proof (aget_byte _ _ _ Y E0) as B0. assert (NB : byte (Z.shiftl prec 4 + Z.land b0 15) = b0) by (unfold prec; rewrite nib_add, byte_id by exact B0; reflexivity). rewrite NB.
  assert (SB : sl data pos (b0 :: vb)) by (apply sl_cons; [exact E0|exact S1]).
  assert (EL : 1 + (if prec =? 0 then 1 else 2) * 64 = Z.of_nat (length (b0 :: vb))) by (cbn [length]; rewrite Nat2Z.inj_succ, L1; change (Z.of_nat 64) with 64; destruct HP as [H|H]; rewrite H; reflexivity).
  assert (EP : pos1 = pos + Z.of_nat (length (b0 :: vb))) by (cbn [length]; unfold pos1; lia).
  rewrite EL. destruct (Z.eqb_spec pos1 fin) as [E|N].
  - rewrite (Q4 ltac:(lia)) in *. cbn [app]. exists (b0 :: vb). split; [reflexivity|]. split; [exact SB|]. split; lia.
  - assert (Hlt : pos1 < fin) by lia. destruct (Q3 Hlt EF rest) as (b2 & E2 & S2 & L2 & N2). rewrite E2. cbn [jbind].
    exists ((b0 :: vb) ++ b2). split; [reflexivity|]. split; [apply sl_join; [exact SB|rewrite <- EP; exact S2]|]. rewrite app_length. split; lia.
Qed.

Lemma read_dqt_ok data pos q : bytes data -> 2 <= pos -> (length q <= 4)%nat ->
  jpost (read_dqt data pos q) (fun r => pos + 2 <= snd r <= Z.of_nat (length data) /\ (length (fst r) <= 4)%nat
    /\ exists qs, fst r = q ++ qs /\ Forall (fun t => 0 <= q_index t <= 3) qs
       /\ (aget data (pos - 2) = JOk 255 -> aget data (pos - 1) = JOk 219 -> forall rest,
           exists out, write_dqt (qs ++ rest) = JOk (out, rest) /\ sl data (pos - 2) out /\ snd r = pos - 2 + Z.of_nat (length out))).
Proof.
  intros Y Hp Hq. unfold read_dqt. apply jpost_guard. intros G1. apply has_len_true in G1.
  apply jpost_u16; [lia|lia|]. intros l1 l0 L1 L0. apply jpost_guard. intros G2. apply negb_true_iff, Z.eqb_neq in G2.
  eapply jpost_bind; [apply (dqt_loop_ok data (pos + (l1 * 256 + l0)) Y 5 (pos + 2) q); [lia|lia|exact Hq]|].
  intros [q' pos'] (Q1 & Q0 & qs & Q2 & Q5 & Q4 & Q3). cbn [fst snd] in *. apply jpost_guard. intros G3. apply Z.eqb_eq in G3. cbn [jpost fst snd].
  split; [lia|]. split; [exact Q0|]. exists qs. split; [exact Q2|]. split; [exact Q5|]. intros M1 M2 rest.
  destruct (Q3 ltac:(lia) ltac:(lia) rest) as (b & E1 & SL1 & LB & LN).
  unfold write_dqt. rewrite E1. cbn [jbind]. rewrite LN. replace (2 + Z.of_nat (length b)) with (l1 * 256 + l0) by lia.
  rewrite byte_hi, land_lo by (eapply aget_byte; eauto). rewrite buffer_exact by (cbn [app length]; lia). cbn [jbind].
  eexists. split; [reflexivity|]. split; [|cbn [app length]; lia].
  cbn [app]. apply sl_cons; [exact M1|]. replace (pos - 2 + 1) with (pos - 1) by lia. apply sl_cons; [exact M2|].
  replace (pos - 1 + 1) with pos by lia. apply sl_cons; [exact L1|]. apply sl_cons; [exact L0|]. replace (pos + 1 + 1) with (pos + 2) by lia. exact SL1.
Qed.

(** * Restart interval, stored segments *)
Lemma read_dri_ok data pos found : bytes data -> 2 <= pos ->
  jpost (read_dri data pos found) (fun r => found = false /\ snd r = pos + 4 /\ pos + 4 <= Z.of_nat (length data) /\ 0 <= fst r < 65536
    /\ (aget data (pos - 2) = JOk 255 -> aget data (pos - 1) = JOk 221 -> forall J, j_restart J = fst r -> sl data (pos - 2) (write_dri J))).
Proof.
  intros Y Hp. unfold read_dri. apply jpost_guard. intros G0. apply negb_true_iff in G0. apply jpost_guard. intros G1. apply has_len_true in G1.
  apply jpost_u16; [lia|lia|]. intros l1 l0 L1 L0. apply jpost_u16; [lia|lia|]. intros r1 r0 R1 R0. apply jpost_guard. intros G2. apply Z.eqb_eq in G2. cbn [jpost fst snd].
  pose proof (aget_byte _ _ _ Y L1) as B1. pose proof (aget_byte _ _ _ Y L0) as B0. pose proof (aget_byte _ _ _ Y R1) as B3. pose proof (aget_byte _ _ _ Y R0) as B2.
  unfold is_byte in B0, B1, B2, B3. split; [exact G0|]. split; [reflexivity|]. split; [lia|]. split; [lia|].
  intros M1 M2 J EJ. unfold write_dri. rewrite EJ. rewrite byte_hi, land_lo, byte_id by assumption.
  assert (E1 : l1 = 0) by lia. assert (E0 : l0 = 4) by lia. subst l1 l0.
  apply sl_cons; [exact M1|]. replace (pos - 2 + 1) with (pos - 1) by lia. apply sl_cons; [exact M2|]. replace (pos - 1 + 1) with pos by lia.
  apply sl_cons; [exact L1|]. apply sl_cons; [exact L0|]. replace (pos + 1 + 1) with (pos + 2) by lia. apply sl_cons; [exact R1|]. apply sl_one. exact R0.
Qed.

Lemma slice_sl data a n s : slice data a n = JOk s -> sl data a s /\ Z.of_nat (length s) = n.
Proof.
  unfold slice. destruct (Z.leb_spec 0 a); [|discriminate]. destruct (Z.leb_spec 0 n); [|discriminate]. destruct (Z.leb_spec (a + n) (Z.of_nat (length data))); [|discriminate].
  cbn [andb]. intros E. injection E as <-. assert (LS : length (firstn (Z.to_nat n) (skipn (Z.to_nat a) data)) = Z.to_nat n) by (rewrite firstn_length, skipn_length; lia).
  split; [|lia]. exists (firstn (Z.to_nat a) data), (skipn (Z.to_nat n) (skipn (Z.to_nat a) data)). rewrite firstn_skipn, firstn_skipn, firstn_length. split; [reflexivity|lia].
Qed.

Lemma read_blob_ok data pos : bytes data -> 2 <= pos ->
  jpost (read_blob data pos) (fun r => pos + 2 <= snd r <= Z.of_nat (length data)
    /\ (aget data (pos - 2) = JOk 255 -> sl data (pos - 2) (255 :: fst r)) /\ snd r = pos - 1 + Z.of_nat (length (fst r))).
Proof.
  intros Y Hp. unfold read_blob. apply jpost_guard. intros G1. apply has_len_true in G1. apply jpost_u16; [lia|lia|]. intros l1 l0 L1 L0.
  apply jpost_guard. intros G2. apply between_true in G2. apply jpost_guard. intros G3. apply has_len_true in G3.
  set (n := l1 * 256 + l0) in *.
  assert (E : exists s, slice data (pos + 2 - 3) (n + 1) = JOk s).
  { unfold slice. destruct (Z.leb_spec 0 (pos + 2 - 3)); [|lia]. destruct (Z.leb_spec 0 (n + 1)); [|lia]. destruct (Z.leb_spec (pos + 2 - 3 + (n + 1)) (Z.of_nat (length data))); [|lia]. cbn [andb]. eauto. }
  destruct E as [s E]. rewrite E. cbn [jbind jpost fst snd]. apply slice_sl in E as [S1 S2]. split; [lia|]. split; [|lia].
  intros M1. apply sl_cons; [exact M1|]. replace (pos - 2 + 1) with (pos + 2 - 3) by lia. exact S1.
Qed.
