(** How far ahead bit-level sections ask: at most 4000 bits (500 bytes) at a time. *)
From Verif Require Import Base BitModel BitProofs ProgLogic CodesModel LehmerModel HistModel HistProofs QuantModel Tables JpegModel InternalsModel Stream HuffModel HuffProofs1 HStoreModel CMapModel CMapProofs1 CMapProofs2 HSecModel HSecProofs.

Fixpoint nle {A} (p : prog A) : Prop :=
  match p with
  | Ret _ => True
  | Fail => True
  | Take n f k => forall v, 0 <= v < 2 ^ Z.of_nat n -> nle (k v)
  | Need n q => (n <= Z.to_nat 4000)%nat /\ nle q
  | Chk q => nle q
  end.

Lemma nle_bind_all {A B} (P : A -> Prop) (g : A -> prog B) : (forall a, P a -> nle (g a)) -> forall p, pall P p -> nle p -> nle (bind p g).
Proof.
  intros H. induction p as [a| |n f k IH|n p IH|p IH]; cbn [pall nle bind]; intros HP HN; auto.
  destruct HN. split; auto.
Qed.
Lemma pall_true {A} (p : prog A) : pall (fun _ => True) p.
Proof. induction p; cbn; auto. Qed.
Lemma nle_bind {A B} (p : prog A) (g : A -> prog B) : nle p -> (forall a, nle (g a)) -> nle (bind p g).
Proof. intros H G. eapply nle_bind_all; [|apply pall_true|exact H]. intros a _. apply G. Qed.
Lemma nle_Read {A} n (k : Z -> prog A) : (forall v, 0 <= v < 2 ^ Z.of_nat n -> nle (k v)) -> nle (Read n k).
Proof. intros H. unfold Read. cbn [nle]. exact H. Qed.

Lemma mrun_nle {A} : forall (p : prog A) b q b', nle p -> mrun p b = More q b' -> nle q.
Proof.
  induction p as [a| |n f k IH|n p IH|p IH]; intros b q b' H E; cbn [mrun nle] in *; try discriminate.
  - eapply IH; [|exact E]. apply H. unfold br_get. replace (2 ^ Z.of_nat n - 1) with (Z.ones (Z.of_nat n)) by (rewrite Z.ones_equiv; lia).
    rewrite Z.land_ones by lia. apply Z.mod_pos_bound. apply Z.pow_pos_nonneg; lia.
  - destruct (br_can_read n b); [eapply IH; [apply H|exact E]|]. injection E as <- _. exact H.
  - destruct (br_is_healthy b) as [h b0]. destruct h; [|discriminate]. eapply IH; [exact H|exact E].
Qed.

Lemma section_call_nle {T} lenient sec (p : prog T) b pos avail q b' pos' : nle p -> section_call lenient sec p b pos avail = SMore q b' pos' -> nle q.
Proof.
  intros H E. unfold section_call in E. destruct (mrun p _) as [a b0| |q0 b0] eqn:M.
  - destruct (br_suspend b0). destruct (br_is_healthy _) as [h ?]. destruct h; discriminate.
  - discriminate.
  - destruct (br_suspend b0) as [b1 un]. destruct (_ <=? _)%nat; [discriminate|]. injection E as <- _ _. eapply mrun_nle; eassumption.
Qed.

(** A suspended section has fewer bits left than it waits for. *)
Lemma section_call_short {T} lenient sec (p : prog T) b pos avail A k q b' pos' :
  bytes sec -> Rest sec b pos A -> (pos <= avail)%nat -> (avail <= length sec)%nat -> bok k p -> (k <= br_nbits b + 8 * (avail - pos))%nat ->
  section_call lenient sec p b pos avail = SMore q b' pos' -> exists n q', q = Need n q' /\ (pos <= pos')%nat /\ (8 * (avail - pos') < n)%nat.
Proof.
  intros Hs HR Hpa Has Hb Hk E. unfold section_call in E.
  set (chunk := firstn (avail - pos) (skipn pos sec)) in *.
  assert (Hcl : length chunk = (avail - pos)%nat) by (unfold chunk; rewrite firstn_length, skipn_length; lia).
  set (lead := firstn (br_nbits b) A).
  assert (Hll : length lead = br_nbits b) by (unfold lead; rewrite firstn_length; pose proof (Rest_a _ _ _ _ HR); lia).
  pose proof (resume_R sec b pos A avail (lenient && (length sec <=? avail)%nat) Hs HR Hpa) as HR0. fold chunk in HR0. cbv zeta in HR0. fold lead in HR0.
  set (b0 := br_set_optimistic (br_resume b chunk) (lenient && (length sec <=? avail)%nat)) in *.
  assert (Hdeb : br_debt b0 = O) by apply (Rest_d _ _ _ _ HR).
  destruct (mrun p b0) as [a b1| |q1 b1] eqn:M.
  - destruct (br_suspend b1). destruct (br_is_healthy _) as [h ?]. destruct h; discriminate.
  - discriminate.
  - destruct (br_suspend b1) as [b2 un] eqn:S. destruct (Nat.leb_spec (length sec) avail) as [L|L]; [discriminate|]. injection E as <- <- <-.
    assert (Hopt : br_opt b0 = false). { unfold b0. cbn. rewrite andb_false_r. reflexivity. }
    pose proof (mrun_budget p _ _ _ _ _ _ k [] true HR0 Hopt Hdeb Hb) as Hm. specialize (Hm ltac:(rewrite app_length, bits_of_bytes_length; lia)).
    rewrite M in Hm. destruct Hm as (L' & c' & real' & k' & n & q' & HR' & _ & _ & _ & _ & _ & Hq & Hlt).
    exists n, q'. split; [exact Hq|].
    pose proof (suspend_Rest sec b pos A avail b1 L' c' real' HR Hpa HR') as Hsu. fold chunk in Hsu. cbv zeta in Hsu. rewrite S in Hsu. destruct Hsu as (S1 & S2 & S3 & S4).
    split; [lia|]. assert (E := f_equal (@length bool) (Rest_s _ _ _ _ S1)). pose proof (Rest_a _ _ _ _ S1). pose proof (Rest_p _ _ _ _ S1).
    rewrite skipn_length, bits_of_bytes_length, skipn_length, app_length, bits_of_bytes_length, skipn_length in E. rewrite app_length, bits_of_bytes_length, skipn_length in *. lia.
Qed.

(** * The sections *)

Lemma nle_varint : forall rem i v, nle (decode_varint_loop rem i v).
Proof.
  induction rem as [|r IH]; intros i v; cbn [decode_varint_loop]; [exact Logic.I|].
  assert (D : nle (Need 1 (Read 1 (fun b => decode_varint_loop r (S i) (Z.lor v (Z.shiftl b (Z.of_nat i) mod 2 ^ 64)))))).
  { cbn [nle]. split; [lia|]. apply nle_Read. intros b _. apply IH. }
  destruct r as [|r']; [exact D|]. cbn [nle]. split; [lia|]. apply nle_Read. intros c _. destruct (c =? 0); [exact Logic.I|exact D].
Qed.
Lemma nle_limited k : (k <= 4000)%nat -> forall rem i v, nle (decode_limited_varint_loop k rem i v).
Proof.
  intros Hk. induction rem as [|r IH]; intros i v; cbn [decode_limited_varint_loop]; [exact Logic.I|].
  cbn [nle]. split; [lia|]. apply nle_Read. intros c _. destruct (c =? 0); [exact Logic.I|]. cbn [nle]. split; [lia|]. apply nle_Read. intros b _. apply IH.
Qed.

Lemma nle_diffs : forall order pred delta vals dp, nle (read_quant_diffs order pred delta vals dp).
Proof.
  induction order as [|k r IH]; intros pred delta vals dp; cbn [read_quant_diffs]; [exact Logic.I|].
  apply nle_bind; [|intros d; cbv zeta; destruct (_ <=? 0); [exact Logic.I|]; destruct (65536 <=? _); [exact Logic.I|apply IH]].
  unfold read_quant_delta. cbn [nle]. split; [lia|]. apply nle_Read. intros nz _. destruct (nz =? 0); [exact Logic.I|]. cbn [nle]. split; [lia|]. apply nle_Read. intros sg _.
  apply nle_bind; [apply nle_varint|intros v; exact Logic.I].
Qed.

Lemma nle_quant_section precs nc : nle (read_quant_section precs nc).
Proof.
  unfold read_quant_section. cbn [nle]. split; [lia|]. apply nle_Read. intros n _. destruct (negb _); [exact Logic.I|]. apply nle_bind.
  - assert (G : forall l i, nle (read_quant_list i l)).
    { induction l as [|p l IH]; intros i; cbn [read_quant_list]; [exact Logic.I|]. apply nle_bind; [|intros t; apply nle_bind; [apply IH|intros ts; exact Logic.I]].
      unfold read_quant_table. apply nle_bind; [|intros [vals dp]; destruct (p <? dp); exact Logic.I]. cbn [nle]. split; [lia|]. apply nle_Read. intros b _.
      destruct (b =? 0); [apply nle_Read; intros; exact Logic.I|]. cbn [nle]. split; [lia|]. apply nle_Read. intros q _.
      apply nle_diffs. }
    apply G.
  - intros ts. apply nle_bind; [|intros idx; exact Logic.I]. generalize (Z.of_nat (length precs)). induction nc as [|m IH]; intros num; cbn [read_quant_idx]; [exact Logic.I|].
    cbn [nle]. split; [lia|]. apply nle_Read. intros x _. destruct (num <=? x); [exact Logic.I|]. apply nle_bind; [apply IH|intros; exact Logic.I].
Qed.

Lemma nle_counts : forall n i total space mc, 0 <= total -> mc <= 256 -> nle (read_counts n i total space mc).
Proof.
  induction n as [|n IH]; intros i total space mc Ht Hm; cbn [read_counts]; [exact Logic.I|]. cbv zeta.
  set (limit := Z.min (mc - total) (Z.shiftr space (16 - Z.of_nat i))). destruct (Z.ltb_spec 0 limit) as [L|L].
  - cbn [nle]. split.
    + assert (Z.log2 limit <= 256); [|lia]. etransitivity; [apply Z.log2_le_lin; lia|]. unfold limit. lia.
    + apply nle_Read. intros c Hc. destruct (limit <? c); [exact Logic.I|]. apply nle_bind; [apply IH; lia|intros; exact Logic.I].
  - apply nle_bind; [apply IH; lia|intros; exact Logic.I].
Qed.

Lemma nle_complex dc : nle (read_complex_huff dc).
Proof.
  unfold read_complex_huff. cbn [nle]. split; [lia|]. apply nle_Read. intros v _. cbv zeta. apply nle_bind.
  - apply nle_counts; [lia|]. destruct dc; vm_compute; discriminate.
  - intros [cs total]. apply nle_bind; [|intros vs; exact Logic.I]. generalize (default_values dc). induction (Z.to_nat total) as [|m IH]; intros values; cbn [read_perm]; [exact Logic.I|].
    apply nle_bind; [apply nle_limited; lia|]. intros c. destruct (pc_remove c values) as [[x values']|]; [|exact Logic.I]. apply nle_bind; [apply IH|intros; exact Logic.I].
Qed.
Lemma nle_huff k : nle (read_huff k).
Proof.
  unfold read_huff. cbn [nle]. split; [destruct k; lia|]. apply nle_Read. intros slot _. apply nle_Read. intros ac _. cbv zeta.
  assert (R : forall l, nle (Read 1 (fun found =>
        if negb (found =? 0) then
          Read 1 (fun idx => Ret (if ac =? 0
                 then mkHC (pad_to 17 (0 :: nth (Z.to_nat idx) kStockDCCounts [])) (pad_to 257 (nth (Z.to_nat idx) kStockDCValues [])) (slot + (if ac =? 0 then 0 else 16)) l
                 else mkHC (pad_to 17 (0 :: nth (Z.to_nat idx) kStockACCounts [])) (pad_to 257 (nth (Z.to_nat idx) kStockACValues [])) (slot + (if ac =? 0 then 0 else 16)) l))
        else let! cv := read_complex_huff (ac =? 0) in Ret (mkHC (fst cv) (snd cv) (slot + (if ac =? 0 then 0 else 16)) l)))).
  { intros l. apply nle_Read. intros found _. destruct (negb (found =? 0)); [apply nle_Read; intros; exact Logic.I|]. apply nle_bind; [apply nle_complex|intros; exact Logic.I]. }
  destruct k; [apply R|apply nle_Read; intros l _; apply R].
Qed.

Lemma nle_read_n : forall n bits, (bits <= 4000)%nat -> nle (read_n n bits).
Proof.
  induction n as [|n IH]; intros bits H; cbn [read_n]; [exact Logic.I|]. cbn [nle]. split; [lia|]. apply nle_Read. intros v _. apply nle_bind; [apply IH; exact H|intros; exact Logic.I].
Qed.

Lemma nle_runs : forall f last num, nle (read_runs f last num).
Proof.
  induction f as [|f IH]; intros last num; cbn [read_runs]; [exact Logic.I|]. cbn [nle]. split; [lia|]. apply nle_Read. intros c _. destruct (c =? 0); [exact Logic.I|].
  apply nle_bind; [apply nle_varint|]. intros x. cbv zeta. destruct (_ <? _); [exact Logic.I|]. apply nle_bind; [apply IH|intros; exact Logic.I].
Qed.
Lemma nle_resets : forall f last, nle (read_resets f last).
Proof.
  induction f as [|f IH]; intros last; cbn [read_resets]; [exact Logic.I|]. cbn [nle]. split; [lia|]. apply nle_Read. intros c _. destruct (c =? 0); [exact Logic.I|].
  apply nle_bind; [apply nle_varint|]. intros x. cbv zeta. destruct (_ <? _); [exact Logic.I|]. apply nle_bind; [apply IH|intros; exact Logic.I].
Qed.
Lemma nle_scan_comps : forall n, nle (read_scan_comps n).
Proof.
  induction n as [|n IH]; cbn [read_scan_comps]; [exact Logic.I|]. cbn [nle]. split; [lia|]. do 3 (apply nle_Read; intros ? _). apply nle_bind; [exact IH|intros; exact Logic.I].
Qed.
Lemma nle_heads : forall n, nle (read_quant_heads n).
Proof.
  induction n as [|k IH]; cbn [read_quant_heads]; [exact Logic.I|]. cbn [nle]. split; [lia|].
  apply nle_Read. intros ix _. cbv zeta. assert (G : forall l, nle (Read 4 (fun prec => if 1 <? prec then Fail else let! r := read_quant_heads k in Ret ((ix, l, prec) :: r)))).
  { intros l. apply nle_Read. intros prec _. destruct (1 <? prec); [exact Logic.I|]. apply nle_bind; [exact IH|intros; exact Logic.I]. }
  destruct k; [apply G|apply nle_Read; intros; apply G].
Qed.
Lemma nle_huffs : forall n, nle (read_huffs n).
Proof.
  induction n as [|k IH]; cbn [read_huffs]; [exact Logic.I|]. cbn [nle]. split; [lia|]. apply nle_Read. intros kn _. cbv zeta. apply nle_bind; [apply nle_huff|].
  intros hc. destruct (negb (kn =? 0)); [exact Logic.I|]. destruct k; [exact Logic.I|]. apply nle_bind; [exact IH|intros; exact Logic.I].
Qed.

Lemma nle_internals fuel w h nc : nle (read_internals fuel w h nc).
Proof.
  unfold read_internals. apply nle_bind.
  { induction fuel as [|f IH]; cbn [read_markers]; [exact Logic.I|]. cbn [nle]. split; [lia|]. apply nle_Read. intros v _. cbv zeta. destruct (_ =? 217); [exact Logic.I|]. apply nle_bind; [exact IH|intros; exact Logic.I]. }
  intros m. apply nle_bind.
  { destruct (_ <? _)%nat; [|exact Logic.I]. cbn [nle]. split; [lia|]. apply nle_Read. intros; exact Logic.I. }
  intros restart. apply nle_bind.
  { apply nle_huffs. }
  intros hs. destruct (negb _); [exact Logic.I|]. apply nle_bind.
  { induction (count_marker 218 m) as [|k IH]; cbn [read_scans]; [exact Logic.I|]. apply nle_bind; [|intros s; apply nle_bind; [exact IH|intros; exact Logic.I]].
    unfold read_scan. cbn [nle]. split; [lia|]. do 5 (apply nle_Read; intros ? _). apply nle_bind.
    { apply nle_scan_comps. }
    intros comps. apply nle_bind; [apply nle_resets|]. intros resets. apply nle_bind; [|intros; exact Logic.I].
    apply nle_runs. }
  intros scans. apply nle_bind.
  { cbn [nle]. split; [lia|]. apply nle_Read. intros n _. apply nle_heads. }
  intros qs. apply nle_bind.
  { unfold read_ids. cbn [nle]. split; [lia|]. apply nle_Read. intros s _. destruct (s =? 0); [destruct (_ <? _)%nat; exact Logic.I|]. destruct (s =? 1); [destruct (_ <? _)%nat; exact Logic.I|].
    destruct (s =? 2); [destruct (_ <? _)%nat; exact Logic.I|]. apply nle_read_n. lia. }
  intros ids. apply nle_bind; [|intros; exact Logic.I]. unfold read_padding. apply nle_bind; [apply nle_limited; lia|]. intros n. destruct (_ <? n); [exact Logic.I|apply nle_read_n; lia].
Qed.

(** Prefix codes and histograms have no suspension points of their own. *)
Lemma nle_look {A} n table base (k : Z -> prog A) : (forall v, nle (k v)) -> nle (look n table base k).
Proof. intros H. unfold look. cbn [nle]. intros v _. destruct (JBitModel.aget table (base + v)); [apply H|exact Logic.I|exact Logic.I]. Qed.
Lemma nle_clcl : forall order cl space num, nle (read_clcl order cl space num).
Proof.
  induction order as [|i r IH]; intros cl space num; cbn [read_clcl]; [exact Logic.I|]. destruct (0 <? space); [|exact Logic.I].
  apply nle_look. intros v. destruct (v =? 0); apply IH.
Qed.
Lemma nle_lens : forall fuel t n acc prev rp rl space, nle (read_lens_loop fuel t n acc prev rp rl space).
Proof.
  induction fuel as [|f IH]; intros t n acc prev rp rl space; cbn [read_lens_loop].
  - destruct ((length acc <? n)%nat && (0 <? space)); [exact Logic.I|]. destruct (space =? 0); exact Logic.I.
  - destruct ((length acc <? n)%nat && (0 <? space)); [|destruct (space =? 0); exact Logic.I]. apply nle_look. intros cl. destruct (cl <? 16).
    + destruct (cl =? 0); apply IH.
    + cbv zeta. apply nle_Read. intros x _. destruct (_ <? _); [exact Logic.I|apply IH].
Qed.
Lemma nle_code arena n : nle (read_code arena n).
Proof.
  unfold read_code. destruct (_ <? _); [exact Logic.I|]. apply nle_Read. intros kind _. destruct (kind =? 1).
  - unfold read_simple. apply nle_Read. intros ns _. apply nle_bind.
    + generalize (Z.to_nat (ns + 1)) (sym_bits (Z.of_nat n mod 2 ^ 16)). intros m bits. induction m as [|m IH]; cbn [read_syms]; [exact Logic.I|]. apply nle_Read. intros s _.
      destruct (_ <=? _); [exact Logic.I|]. apply nle_bind; [exact IH|intros; exact Logic.I].
    + intros syms. destruct (distinct syms); [|exact Logic.I]. cbv zeta. destruct (ns =? 3).
      * apply nle_Read. intros sel _. destruct (simple_entries _ _); exact Logic.I.
      * destruct (simple_entries _ _); exact Logic.I.
  - apply nle_bind; [apply nle_clcl|]. intros [[cl space] num]. destruct ((num =? 1) || (space =? 0)); [|exact Logic.I]. apply nle_bind.
    + unfold read_lens. match goal with |- nle (match ?x with _ => _ end) => destruct x as [[t s]| |] end; [apply nle_lens|exact Logic.I|exact Logic.I].
    + intros lens. cbn [nle]. match goal with |- nle (match ?x with _ => _ end) => destruct x as [[t s]| |] end; exact Logic.I.
Qed.
Lemma nle_sym t : nle (read_sym t).
Proof.
  unfold read_sym. cbn [nle]. intros v _. destruct (JBitModel.aget t v) as [e| |]; [|exact Logic.I|exact Logic.I]. destruct (_ <? _); [|exact Logic.I].
  apply nle_look. intros x. exact Logic.I.
Qed.
Lemma nle_var8 : nle decode_var_len_uint8.
Proof.
  unfold decode_var_len_uint8. apply nle_Read. intros c _. destruct (c =? 0); [exact Logic.I|]. apply nle_Read. intros n _. destruct (n =? 0); [exact Logic.I|].
  apply nle_Read. intros v _. exact Logic.I.
Qed.

Lemma nle_cmap table mp n : 0 <= mp <= 16 -> forall fuel acc, nle (read_cmap fuel table mp n acc).
Proof.
  intros HM. assert (E : forall acc, nle (Read 1 (fun b => Chk (Ret (if b =? 0 then acc else imtf acc))))) by (intros acc; apply nle_Read; intros; exact Logic.I).
  induction fuel as [|f IH]; intros acc; cbn [read_cmap]; (destruct (length acc <? n)%nat; [|apply E]); [exact Logic.I|].
  cbn [nle]. split; [lia|]. apply nle_bind; [apply nle_sym|]. intros code. destruct (code =? 0); [apply IH|]. destruct (code <=? mp); [|apply IH].
  apply nle_Read. intros x _. cbv zeta. destruct (_ <? _); [exact Logic.I|apply IH].
Qed.

Lemma nle_short tree : forall fuel pos delta, nle (read_short fuel tree pos delta).
Proof.
  induction fuel as [|f IH]; intros pos delta; cbn [read_short]; [exact Logic.I|]. apply nle_Read. intros b _. cbv zeta. destruct (nth_error _ _); [|exact Logic.I].
  destruct (0 <? z); [apply IH|exact Logic.I].
Qed.
Lemma nle_hist_counts : forall logs i omit, nle (HistModel.read_counts i omit logs).
Proof.
  induction logs as [|c r IH]; intros i omit; cbn [HistModel.read_counts]; [exact Logic.I|]. cbv zeta.
  assert (G : forall v, nle (bind (HistModel.read_counts (S i) omit r) (fun l => Ret (v :: l)))) by (intros v; apply nle_bind; [apply IH|intros; exact Logic.I]).
  destruct (i =? omit)%nat; [apply G|]. destruct (c =? 0); [apply G|]. destruct (c =? 1); [apply G|]. apply nle_Read. intros b _. apply G.
Qed.
Lemma nle_histogram : nle read_histogram.
Proof.
  unfold read_histogram. apply nle_Read. intros s _. destruct (s =? 1).
  - apply nle_Read. intros ns _. apply nle_Read. intros r0 _. cbv zeta. destruct (ns =? 0); [exact Logic.I|]. apply nle_Read. intros r1 _. destruct (_ =? _)%nat; [exact Logic.I|].
    apply nle_Read. intros v _. exact Logic.I.
  - apply nle_bind; [apply nle_short|]. intros n. apply nle_bind.
    + induction (Z.to_nat n) as [|m IH]; cbn [read_logs]; [exact Logic.I|]. apply nle_bind; [apply nle_short|]. intros v. apply nle_bind; [exact IH|intros; exact Logic.I].
    + intros logs. cbv zeta. apply nle_bind; [apply nle_hist_counts|]. intros cs. destruct (_ <=? _); exact Logic.I.
Qed.
Lemma nle_codes : forall n, nle (read_codes n).
Proof.
  induction n as [|n IH]; cbn [read_codes]; [exact Logic.I|]. cbn [nle]. split; [lia|]. apply nle_bind; [apply nle_histogram|]. intros h.
  destruct (ans_init _ _) as [[t []]|]; [|exact Logic.I|exact Logic.I]. apply nle_bind; [exact IH|intros; exact Logic.I].
Qed.
Lemma nle_schemes : forall n, nle (read_schemes n).
Proof.
  induction n as [|n IH]; cbn [read_schemes]; [exact Logic.I|]. apply nle_Read. intros s _. destruct (7 <=? s); [exact Logic.I|]. apply nle_bind; [exact IH|intros; exact Logic.I].
Qed.
Lemma nle_context_map arena nh n : (nh <= 256)%nat -> nle (read_context_map arena nh n).
Proof.
  intros HN. unfold read_context_map.
  assert (GO : forall mp, 0 <= mp <= 16 -> nle (bind (read_code arena (nh + Z.to_nat mp)) (fun t => Ret (mp, t))) /\ pall (fun c => 0 <= fst c <= 16) (bind (read_code arena (nh + Z.to_nat mp)) (fun t => Ret (mp, t)))).
  { intros mp HM. split; [apply nle_bind; [apply nle_code|intros; exact Logic.I]|]. eapply pall_bind; [apply pall_true|]. intros t _. exact HM. }
  eapply (nle_bind_all (fun c => 0 <= fst c <= 16)).
  - intros [mp t] HM. apply nle_cmap. exact HM.
  - unfold read_cmap_code. cbn [pall]. apply pall_Read. intros u _. destruct (u =? 0); [apply GO; lia|]. apply pall_Read. intros m Hm. change (2 ^ Z.of_nat 4) with 16 in Hm. apply GO. lia.
  - unfold read_cmap_code. cbn [nle]. split; [lia|]. apply nle_Read. intros u _. destruct (u =? 0); [apply GO; lia|]. apply nle_Read. intros m Hm. change (2 ^ Z.of_nat 4) with 16 in Hm. apply GO. lia.
Qed.
Lemma nle_histogram_section arena nc : (nc <= 4)%nat -> nle (read_histogram_section arena nc).
Proof.
  intros HN. unfold read_histogram_section. cbn [nle]. split; [lia|]. apply nle_bind; [apply nle_schemes|]. intros schemes. cbn [nle]. split; [lia|].
  eapply nle_bind_all; [|apply (proj2 decode_var_len_uint8_total)|apply nle_var8]. intros v Hv. cbv beta in Hv. cbn [nle]. cbv zeta. apply nle_bind.
  - destruct (_ <? _)%nat; [apply nle_context_map; lia|exact Logic.I].
  - intros cmap. apply nle_bind; [apply nle_codes|intros; exact Logic.I].
Qed.
