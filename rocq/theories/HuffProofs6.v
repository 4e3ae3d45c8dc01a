(** BuildHuffmanTable decodes the canonical code. *)
From Verif Require Import Base BitModel BitProofs JBitModel JWriteProofs JReadProofs JHuffModel JHuffProofs JHuffPair
  HuffModel HuffProofs1 HuffProofs2 HuffProofs3 HuffProofs4 HuffProofs5.

(** Looking up a window of sixteen bits leads to length [l] and symbol [s]; only the first
    [total] entries are used. *)
Definition tdec (lut : list (Z * Z)) (R total w l s : Z) : Prop :=
  (l <= R /\ aget lut (w mod 2 ^ R) = JOk (l, s))
  \/ (R < l <= 15 /\ exists t v, aget lut (w mod 2 ^ R) = JOk (t + R, v) /\ 1 <= t <= 15 - R /\
      let i := w mod 2 ^ R + v + (w / 2 ^ R) mod 2 ^ t in 2 ^ R <= i < total /\ aget lut i = JOk (l - R, s)).

(** The table decodes every code word. *)
Definition table_ok (lens : list Z) (R : Z) (lut : list (Z * Z)) (total : Z) : Prop :=
  2 ^ R <= total <= Z.of_nat (length lut)
  /\ forall s w, (s < length lens)%nat -> 1 <= nth s lens 0 -> 0 <= w < 65536 ->
       w mod 2 ^ (nth s lens 0) = brev (Z.to_nat (nth s lens 0)) (code_value lens s) ->
       tdec lut R total w (nth s lens 0) (Z.of_nat s).

Lemma bel_split s lens : (s < length lens)%nat -> 1 <= nth s lens 0 ->
  0 <= cnt (nth s lens 0) (firstn s lens) < cnt (nth s lens 0) lens.
Proof.
  intros Hs Hl. split; [apply cnt_nonneg|]. set (l := nth s lens 0).
  rewrite <- (firstn_skipn s lens) at 2. rewrite cnt_app.
  rewrite (nth_error_skipn_cons lens s l (nth_err_nth lens s 0 Hs)). rewrite cnt_cons, Z.eqb_refl.
  pose proof (cnt_nonneg l (skipn (S s) lens)). lia.
Qed.

(** Where a symbol is in the sorted order, and which windows belong to it. *)
Lemma symbol_place lens s : complete lens -> (s < length lens)%nat -> 1 <= nth s lens 0 ->
  let l := nth s lens 0 in
  let ls := run lens (zs 1 15) in
  let j := Z.to_nat (bel l lens + cnt l (firstn s lens)) in
  (j < length ls)%nat /\ nth j ls 0 = l /\ 0 <= code_value lens s < 2 ^ l
  /\ kpos ls j = code_value lens s * wgt l
  /\ forall w, 0 <= w < 65536 -> w mod 2 ^ l = brev (Z.to_nat l) (code_value lens s) ->
       kpos ls j <= brev 16 w < kpos ls (S j).
Proof.
  intros C Hs Hl l ls j. pose proof (complete_kraft lens C) as [_ K]. destruct C as [F _].
  assert (Hl15 : l <= 15) by (rewrite Forall_forall in F; apply F, nth_In, Hs).
  pose proof (bel_split s lens Hs Hl) as Hr. fold l in Hr.
  destruct (run_pos lens l (cnt l (firstn s lens)) ltac:(unfold l in *; lia) Hr) as (A & B & D).
  pose proof (code_value_pos lens s Hs F Hl) as V. fold l in V.
  fold j in A, B, D. fold ls in A, B, D. fold ls in K. 
  pose proof (wgt_pos l ltac:(lia)) as W.
  assert (D2 : kpos ls j = code_value lens s * wgt l) by lia.
  assert (KS : kpos ls (S j) = kpos ls j + wgt l) by (rewrite kpos_S by exact A; rewrite B; reflexivity).
  assert (KB : kpos ls (S j) <= 65536).
  { rewrite <- K, <- kpos_all. apply kpos_le. lia. }
  pose proof (kpos_nonneg ls j) as P.
  assert (V0 : 0 <= code_value lens s) by nia.
  assert (VB : code_value lens s < 2 ^ l).
  { pose proof (wgt_full l ltac:(unfold l in *; lia)). pose proof (pow2_pos l ltac:(unfold l in *; lia)). nia. }
  split; [exact A|]. split; [exact B|]. split; [lia|]. split; [exact D2|].
  intros w Hw E. rewrite KS, D2.
  pose proof (window_class l (code_value lens s) w ltac:(unfold l in *; lia) V0 ltac:(nia) Hw) as WC.
  replace (code_value lens s * wgt l + wgt l) with ((code_value lens s + 1) * wgt l) by lia.
  apply WC. rewrite key_of_pos; [exact E|unfold l in *; lia|exact V0|nia].
Qed.

Lemma run_empty lens lo n : (forall x, lo <= x < lo + Z.of_nat n -> cnt x lens = 0) -> run lens (zs lo n) = [].
Proof.
  revert lo; induction n as [|n IH]; intros lo H; [reflexivity|]. rewrite run_S, H by lia. cbn [Z.to_nat repeat app].
  apply IH. intros x Hx. apply H. lia.
Qed.

(** The first half of the function, up to the filled root table. *)
Lemma build_root lut R lens count : complete lens -> Z.of_nat (length lens) <= 32768 -> counts_lens lens count ->
  1 <= R < 15 -> 2 ^ R <= Z.of_nat (length lut) ->
  exists sorted M T st lut',
    build_table lut R lens count =
      (let* st := bh_len_loop (bh_sub_step sorted R) (zspan (R + 1) M)
         (mkB (b_cnt st) (b_key st) (b_sym st) lut' 0 (b_tbits st) (2 ^ R) (2 ^ R) (-1)) in
       JOk (b_lut st, b_total st))
    /\ 1 <= M <= 15 /\ T = Z.min M R /\ (forall x, M < x <= 15 -> cnt x lens = 0)
    /\ (cnt M lens <> 0 \/ M = 1)
    /\ binv sorted (run lens (zs 1 (Z.to_nat T))) (run lens (zs (T + 1) (Z.to_nat (15 - T)))) st
    /\ length lut' = length lut
    /\ (forall s, (s < length lens)%nat -> 1 <= nth s lens 0 ->
         nth (Z.to_nat (bel (nth s lens 0) lens + cnt (nth s lens 0) (firstn s lens))) sorted 0 = Z.of_nat s)
    /\ (forall j w, (j < length (run lens (zs 1 (Z.to_nat T))))%nat -> 0 <= w < 65536 ->
          kpos (run lens (zs 1 (Z.to_nat T))) j <= brev 16 w < kpos (run lens (zs 1 (Z.to_nat T))) (S j) ->
          aget lut' (w mod 2 ^ R) = JOk (nth j (run lens (zs 1 (Z.to_nat T))) 0, nth j sorted 0)).
Proof.
  intros CO Hn CL HR LL. pose proof (complete_kraft lens CO) as [_ K]. pose proof (complete_many lens CO) as HM2.
  destruct CO as [F _]. pose proof CL as [LC CC].
  unfold build_table. change (2 ^ kMaxBits) with 32768. destruct (Z.ltb_spec 32768 (Z.of_nat (length lens))); [lia|].
  assert (NN : Forall (fun c => 0 <= c) (skipn 1 count)).
  { apply Forall_forall. intros c Hc. apply (In_nth _ _ 0) in Hc as (k & Hk & <-). rewrite skipn_length in Hk.
    rewrite skipn1_nth. specialize (CC (Z.of_nat (S k)) ltac:(lia)). rewrite Nat2Z.id in CC. rewrite CC. apply cnt_nonneg. }
  assert (LSk : length (skipn 1 count) = 15%nat) by (rewrite skipn_length; lia).
  pose proof (bel_le 16 lens) as B16.
  assert (SA : sumZ (skipn 1 count) = bel 16 lens).
  { rewrite <- (firstn_all (skipn 1 count)), LSk. rewrite (counts_sum lens count CL 15) by lia. reflexivity. }
  destruct (bh_sort_ok lens F lens [] (0 :: bh_offsets (skipn 1 count) 0) (repeat 0 (length lens))) as (off & sorted & ES & LSo & HO & HS).
  - reflexivity.
  - cbn [length]. rewrite bh_offsets_len, LSk. reflexivity.
  - apply repeat_length.
  - intros l Hl. replace (Z.to_nat l) with (S (Z.to_nat (l - 1))) by lia. cbn [nth].
    rewrite bh_offsets_nth by (try exact NN; lia). rewrite (counts_sum lens count CL) by lia.
    change (cnt l []) with 0. replace (Z.of_nat (Z.to_nat (l - 1)) + 1) with l by lia. lia.
  - intros s Hs. cbn [length] in Hs. lia.
  - cbn [length] in ES. change (Z.of_nat 0) with 0 in ES. rewrite ES. cbn [jbind fst snd].
    specialize (HO 15 ltac:(lia)) as H15. change (Z.to_nat 15) with 15%nat in H15. change (15 + 1) with 16 in H15. rewrite H15.
    destruct (Z.eqb_spec (bel 16 lens) 1); [lia|].
    set (M := bh_max_length 1 (skipn 1 count) 1).
    destruct (bh_max_length_ok (skipn 1 count) 1 1 ltac:(lia)) as (MA & MB & _). fold M in MA, MB.
    assert (HM : 1 <= M <= 15).
    { destruct MB as [MB|(k & Hk & _ & MB)]; lia. }
    assert (MZ : forall x, M < x <= 15 -> cnt x lens = 0).
    { intros x Hx. rewrite <- CC by lia. destruct (Z.eq_dec (nth (Z.to_nat x) count 0) 0) as [E|N]; [exact E|].
      specialize (MA (Z.to_nat (x - 1)) ltac:(lia)). rewrite skipn1_nth in MA. replace (S (Z.to_nat (x - 1))) with (Z.to_nat x) in MA by lia.
      specialize (MA N). lia. }
    assert (MN : cnt M lens <> 0 \/ M = 1).
    { destruct MB as [MB|(k & Hk & Hne & MB)]; [right; exact MB|]. left. rewrite <- CC by lia. rewrite skipn1_nth in Hne.
      replace (Z.to_nat M) with (S k) by lia. exact Hne. }
    set (T := if M <? R then M else R). assert (ET : T = Z.min M R) by (unfold T; destruct (Z.ltb_spec M R); lia).
    set (st0 := mkB count 0 0 lut 0 T (2 ^ T) (2 ^ R) (-1)).
    assert (B0 : broot R sorted [] (run lens (zs 1 (Z.to_nat (16 - 1)))) st0).
    { change (Z.to_nat (16 - 1)) with 15%nat. unfold broot, st0. cbn [b_cnt b_key b_sym b_lut b_table b_tbits b_tsize b_total b_low].
      split.
      - unfold binv. cbn [b_cnt b_key b_sym app length]. split.
        + split; [exact LC|]. intros l Hl. rewrite CC, run_cnt by lia. destruct (Z.leb_spec 1 l), (Z.ltb_spec l (1 + Z.of_nat 15)); cbn [andb]; lia.
        + split; [reflexivity|]. pose proof (run_all_length lens F). pose proof (bel_le 16 lens). split; [lia|]. split.
          { eapply Forall_impl; [|apply run_range]. cbv beta. intros; lia. }
          split; [apply run_ascending|]. split; [exact K|]. intros _. vm_compute. reflexivity.
      - split; [lia|]. split; [reflexivity|]. split; [lia|]. split; [reflexivity|]. split; [constructor|]. split; [exact LL|].
        intros j w Hj. cbn [length] in Hj. lia. }
    destruct (root_loop R sorted lens (Z.to_nat T) 1 [] st0 ltac:(lia)) as (st1 & E1 & B1 & T1 & L1 & O1).
    + unfold st0. cbn [b_tbits]. lia.
    + lia.
    + exact B0.
    + rewrite zspan_zs. replace (T - 1 + 1) with T by lia. fold st0. rewrite E1. cbn [jbind]. cbn [app] in B1.
      replace (1 + Z.of_nat (Z.to_nat T)) with (T + 1) in B1 by lia. replace (Z.to_nat (16 - 1 - Z.of_nat (Z.to_nat T))) with (Z.to_nat (15 - T)) in B1 by lia.
      destruct B1 as (BI & HT & ETS & _ & _ & F8 & LL1 & LD). unfold st0 in T1, L1, O1. cbn [b_tbits b_lut b_total] in T1, L1, O1.
      rewrite T1 in *.
      destruct (bh_fill_ok 16 T R (b_lut st1)) as (lut' & EF & LF & GF); [lia|lia|lia|].
      rewrite ETS, EF. cbn [jbind].
      exists sorted, M, T, st1, lut'. split; [rewrite T1; reflexivity|]. split; [exact HM|]. split; [exact ET|]. split; [exact MZ|]. split; [exact MN|].
      split; [exact BI|]. split; [congruence|]. split.
      * intros s Hs Hl. specialize (HS s Hs Hl). apply aget_Some in HS as [_ HS]. apply nth_error_nth with (d := 0) in HS. exact HS.
      * intros j w Hj Hw Hk. rewrite GF by (apply Z.mod_pos_bound, pow2_pos; lia). rewrite mod_mod_pow by lia.
        apply LD; assumption.
Qed.

(** All lengths within the root table. *)
Lemma build_small lut R lens count : complete lens -> Z.of_nat (length lens) <= 32768 -> counts_lens lens count ->
  1 <= R < 15 -> 2 ^ R <= Z.of_nat (length lut) -> Forall (fun l => l <= R) lens ->
  exists lut', build_table lut R lens count = JOk (lut', 2 ^ R) /\ length lut' = length lut /\ table_ok lens R lut' (2 ^ R).
Proof.
  intros CO Hn CL HR LL FR.
  destruct (build_root lut R lens count CO Hn CL HR LL) as (sorted & M & T & st & lut' & E & HM & ET & MZ & MN & BI & L' & HS & LD).
  assert (HMR : M <= R).
  { destruct (Z_le_gt_dec M R) as [H|H]; [exact H|]. destruct MN as [MN|MN]; [|lia]. exfalso. apply MN.
    unfold cnt. clear - FR H. induction FR as [|x r Hx FR IH]; [reflexivity|]. cbn [filter]. destruct (Z.eqb_spec x M); [lia|]. exact IH. }
  rewrite zspan_zs in E. replace (Z.to_nat (M - (R + 1) + 1)) with 0%nat in E by lia. cbn [zs seq map bh_len_loop jbind b_lut b_total] in E.
  exists lut'. split; [exact E|]. split; [exact L'|]. split; [lia|].
  intros s w Hs Hl Hw Ew. destruct (symbol_place lens s CO Hs Hl) as (Hj & Nj & _ & _ & Hk). specialize (Hk w Hw Ew). cbv zeta in Hk, Hj, Nj.
  assert (X : run lens (zs 1 15) = run lens (zs 1 (Z.to_nat T))).
  { replace 15%nat with (Z.to_nat T + Z.to_nat (15 - T))%nat by lia. rewrite zs_app, run_app.
    rewrite (run_empty lens (1 + Z.of_nat (Z.to_nat T))); [apply app_nil_r|]. intros x Hx. apply MZ. lia. }
  rewrite X in *. left. split; [rewrite Forall_forall in FR; apply FR, nth_In, Hs|].
  specialize (LD _ w Hj Hw Hk). rewrite Nj in LD. rewrite HS in LD by assumption. exact LD.
Qed.

(** Tables with sub-tables; the number of entries used. *)
Lemma build_main lut R lens count : complete lens -> Z.of_nat (length lens) <= 32768 -> counts_lens lens count ->
  1 <= R < 15 -> 2 ^ R + Z.of_nat (length lens) + (2 ^ (15 - R) - (15 - R) - 1) <= Z.of_nat (length lut) <= 65535 ->
  exists lut' total, build_table lut R lens count = JOk (lut', total) /\ length lut' = length lut
    /\ total <= 2 ^ R + Z.of_nat (length lens) + (2 ^ (15 - R) - (15 - R) - 1)
    /\ table_ok lens R lut' total.
Proof.
  intros CO Hn CL HR LL. pose proof (complete_kraft lens CO) as [_ K].
  pose proof (gap_mono 0 (15 - R) ltac:(lia)) as G. change (2 ^ 0 - 0) with 1 in G.
  destruct (build_root lut R lens count CO Hn CL HR ltac:(lia)) as (sorted & M & T & st & lut' & E & HM & ET & MZ & MN & BI & L' & HS & LD).
  set (ls := run lens (zs 1 15)) in *.
  assert (Lls : Z.of_nat (length ls) <= Z.of_nat (length lens)).
  { unfold ls. rewrite run_all_length by (apply CO). apply bel_le. }
  assert (X : ls = run lens (zs 1 (Z.to_nat T)) ++ run lens (zs (T + 1) (Z.to_nat (15 - T)))).
  { unfold ls. replace 15%nat with (Z.to_nat T + Z.to_nat (15 - T))%nat by lia. rewrite zs_app, run_app. do 3 f_equal. lia. }
  set (done := run lens (zs 1 (Z.to_nat T))) in *.
  assert (FT : Forall (fun l => l <= R) done).
  { eapply Forall_impl; [|apply run_range]. cbv beta. intros; lia. }
  set (st2 := mkB (b_cnt st) (b_key st) (b_sym st) lut' 0 (b_tbits st) (2 ^ R) (2 ^ R) (-1)) in *.
  set (n := Z.to_nat (M - (R + 1) + 1)).
  assert (RX : run lens (zs (T + 1) (Z.to_nat (15 - T))) = run lens (zs (R + 1) (Z.to_nat (16 - (R + 1))))).
  { destruct (Z_le_gt_dec R M) as [H|H].
    - replace T with R by lia. do 2 f_equal. lia.
    - rewrite !run_empty; [reflexivity| |]; intros x Hx; apply MZ; lia. }
  assert (BS : bsub R sorted done (run lens (zs (R + 1) (Z.to_nat (16 - (R + 1))))) st2).
  { unfold bsub. split.
    { rewrite <- RX. exact BI. }
    split; [lia|]. split.
    { eapply Forall_impl; [|apply run_range]. cbv beta. intros; lia. }
    rewrite <- RX, <- X. unfold st2. cbn [b_lut b_table b_low b_tsize b_total].
    split; [lia|]. split.
    - intros j w Hj Hw Hk. left. specialize (LD j w Hj Hw Hk). split; [|exact LD].
      rewrite Forall_forall in FT. apply FT, nth_In, Hj.
    - left. split; [reflexivity|]. split; [reflexivity|]. split; [reflexivity|]. split; [reflexivity|]. split.
      + unfold blong. clear - FT. induction FT as [|x r Hx FT IH]; [reflexivity|]. cbn [filter]. destruct (Z.ltb_spec R x); [lia|]. exact IH.
      + apply kraft_div; [exact FT|lia]. }
  assert (FIN : exists st3, bh_len_loop (bh_sub_step sorted R) (zspan (R + 1) M) st2 = JOk st3
            /\ bsub R sorted ls [] st3 /\ length (b_lut st3) = length lut).
  { rewrite zspan_zs. fold n. destruct (sub_loop R sorted lens n (R + 1) done st2 ltac:(lia) ltac:(unfold n; lia) BS) as (st3 & E3 & B3 & L3).
    exists st3. split; [exact E3|]. unfold st2 in L3. cbn [b_lut] in L3. split; [|congruence].
    rewrite (run_empty lens (R + 1 + Z.of_nat n)) in B3 by (intros x Hx; apply MZ; unfold n in Hx; lia).
    replace (done ++ run lens (zs (R + 1) n)) with ls in B3; [exact B3|].
    rewrite X, RX. f_equal.
    replace (Z.to_nat (16 - (R + 1))) with (n + (Z.to_nat (16 - (R + 1)) - n))%nat by (unfold n; lia).
    rewrite zs_app, run_app. rewrite (run_empty lens (R + 1 + Z.of_nat n)) by (intros x Hx; apply MZ; unfold n in Hx; lia). apply app_nil_r. }
  destruct FIN as (st3 & E3 & B3 & L3). rewrite E3 in E. cbn [jbind] in E.
  exists (b_lut st3), (b_total st3). split; [exact E|]. split; [exact L3|].
  destruct B3 as (_ & _ & _ & SZ & LD3 & CS). rewrite app_nil_r in SZ.
  assert (TT : 2 ^ R <= b_total st3 /\ b_total st3 <= 2 ^ R + Z.of_nat (length lens) + (2 ^ (15 - R) - (15 - R) - 1)
     /\ b_total st3 <= Z.of_nat (length (b_lut st3))
     /\ (b_low st3 = -1 \/ exists t, 1 <= t <= 15 - R /\ b_total st3 = b_table st3 + 2 ^ t /\ aget (b_lut st3) (b_low st3) = JOk (t + R, b_table st3 - b_low st3))
     /\ b_table st3 <= b_total st3).
  { pose proof (pow2_pos R ltac:(lia)). destruct CS as [(E1 & E2 & _ & E4 & _)|(B & u & x & HB & EL & KB & Ht & Ets & Htab & Etot & Hlen & EA & HX & HZ)].
    - rewrite E4, E2. split; [lia|]. split; [lia|]. split; [lia|]. split; [left; exact E1|lia].
    - cbv zeta in HX. change (kle (R + b_tbits st3) []) with 0 in HX. change (kle (R + b_tbits st3 - 1) []) with 0 in HX.
      destruct HX as (H1 & H2 & _ & H4 & H5).
      set (rem := (B + 1) * wgt R - kraft ls) in *. assert (rem = 0) by lia.
      pose proof (wgt_pos u ltac:(lia)) as W. assert (x = 0) by nia.
      pose proof (gap_mono (b_tbits st3) (15 - R) ltac:(lia)). pose proof (blong_le R ls). pose proof (pow2_pos (b_tbits st3) ltac:(lia)).
      split; [lia|]. split; [lia|]. split; [lia|]. split; [|lia]. right. exists (b_tbits st3). auto. }
  destruct TT as (T1 & T2 & T3 & T4 & T5). split; [exact T2|]. split; [lia|].
  intros s w Hs Hl Hw Ew. destruct (symbol_place lens s CO Hs Hl) as (Hj & Nj & _ & _ & Hk). specialize (Hk w Hw Ew). cbv zeta in Hk, Hj, Nj.
  fold ls in Hj, Nj, Hk. specialize (LD3 _ w Hj Hw Hk). rewrite Nj, HS in LD3 by assumption.
  destruct LD3 as [LD3|(Hl2 & t & v & A1 & A2 & A3)]; [left; exact LD3|]. right. split; [exact Hl2|]. exists t, v. split; [exact A1|]. split; [exact A2|].
  cbv zeta in *. destruct A3 as (A3 & A4 & A5). split; [|exact A5]. split; [exact A3|].
  destruct (Z.eq_dec (w mod 2 ^ R) (b_low st3)) as [El|Nl]; [|specialize (A4 Nl); clear - A4 T5; lia].
  pose proof (Z.mod_pos_bound w (2 ^ R) (pow2_pos R ltac:(clear - HR; lia))) as MW.
  destruct T4 as [T4|(t' & Ht' & E' & A')]; [clear - T4 El MW; lia|]. rewrite El, A' in A1. injection A1 as Q1 Q2.
  assert (t' = t) by (clear - Q1; lia). subst t'.
  pose proof (Z.mod_pos_bound (w / 2 ^ R) (2 ^ t) (pow2_pos t ltac:(clear - Ht'; lia))) as MT. rewrite El. clear - MT E' Q2. lia.
Qed.

(** * Reading a symbol *)

Lemma val_rev_bits n : forall v, val_of (rev (bits_of n v)) = brev n v.
Proof.
  induction n as [|n IH]; intros v; [reflexivity|]. cbn [bits_of rev brev].
  rewrite val_of_app, rev_length, bits_of_length, IH. cbn [val_of]. rewrite Zmod_odd. unfold b2z. destruct (Z.odd v); lia.
Qed.

Lemma code_bits_len lens s : length (code_bits lens s) = Z.to_nat (nth s lens 0).
Proof. unfold code_bits. rewrite rev_length, bits_of_length. reflexivity. Qed.

Lemma val_code lens s rest : val_of (code_bits lens s ++ rest) mod 2 ^ Z.of_nat (Z.to_nat (nth s lens 0)) = brev (Z.to_nat (nth s lens 0)) (code_value lens s).
Proof.
  rewrite val_of_app, code_bits_len. rewrite Z.mul_comm, Z_mod_plus_full. unfold code_bits. rewrite val_rev_bits.
  apply Z.mod_small, brev_range.
Qed.

Lemma read_sym_ok strict lens lut total s rest : table_ok lens 8 lut total -> (s < length lens)%nat -> 1 <= nth s lens 0 <= 15 ->
  arun strict (read_sym (firstn (Z.to_nat total) lut)) (code_bits lens s ++ rest) = Some (Z.of_nat s, rest).
Proof.
  intros [HT TD] Hs Hl. set (str := code_bits lens s ++ rest). set (l := nth s lens 0) in *.
  assert (Ls : length str = (Z.to_nat l + length rest)%nat) by (unfold str; rewrite app_length, code_bits_len; reflexivity).
  assert (Sk : skipn (Z.to_nat l) str = rest) by (unfold str; rewrite <- (code_bits_len lens s : length (code_bits lens s) = Z.to_nat l); apply skipn_app_exact).
  set (w := val_of str mod 65536).
  assert (Hw : 0 <= w < 65536) by (apply Z.mod_pos_bound; lia).
  assert (WM : forall k, 0 <= k <= 16 -> w mod 2 ^ k = val_of str mod 2 ^ k).
  { intros k Hk. unfold w. change 65536 with (2 ^ 16). apply mod_mod_pow. lia. }
  assert (Ew : w mod 2 ^ l = brev (Z.to_nat l) (code_value lens s)).
  { rewrite WM by lia. pose proof (val_code lens s rest) as V. fold l str in V. rewrite Z2Nat.id in V by lia. exact V. }
  specialize (TD s w Hs ltac:(fold l; lia) Hw Ew). fold l in TD.
  assert (P8 : peek 8 str = w mod 2 ^ 8) by (rewrite peek_val, WM by lia; reflexivity).
  pose proof (Z.mod_pos_bound w (2 ^ 8) ltac:(lia)) as B8.
  unfold read_sym. cbn [arun]. rewrite P8. rewrite aget_firstn by (rewrite Z2Nat.id; lia).
  change kRootBits with 8. destruct TD as [(Hle & E)|(Hgt & t & v & E & Ht & Hi & E2)]; rewrite E; cbn [fst snd].
  - destruct (Z.ltb_spec 8 l); [lia|]. rewrite Ls. destruct (Nat.leb_spec (Z.to_nat l) (Z.to_nat l + length rest)); [|lia].
    cbn [arun]. rewrite Sk. reflexivity.
  - destruct (Z.ltb_spec 8 (t + 8)); [|lia]. rewrite Ls. destruct (Nat.leb_spec 8 (Z.to_nat l + length rest)); [|lia].
    unfold look. cbn [arun]. replace (t + 8 - 8) with t by lia.
    assert (PT : peek (Z.to_nat t) (skipn 8 str) = (w / 2 ^ 8) mod 2 ^ t).
    { rewrite peek_val, val_of_skipn. rewrite Z2Nat.id by lia. change (Z.of_nat 8) with 8.
      pose proof (mod_div_pow w 8 t ltac:(lia) ltac:(lia)) as A. pose proof (mod_div_pow (val_of str) 8 t ltac:(lia) ltac:(lia)) as B.
      rewrite (WM (8 + t)) in A by lia. rewrite (WM 8) in A by lia. rewrite B in A. lia. }
    rewrite PT. rewrite aget_firstn by (rewrite Z2Nat.id by lia; lia). rewrite E2. cbn [fst snd].
    rewrite skipn_length, Ls. destruct (Nat.leb_spec (Z.to_nat (l - 8)) (Z.to_nat l + length rest - 8)); [|lia].
    rewrite skipn_skipn'. replace (8 + Z.to_nat (l - 8))%nat with (Z.to_nat l) by lia. cbn [arun]. rewrite Sk. reflexivity.
Qed.

Lemma look_ok {A} strict lens R lut total s rest (k : Z -> prog A) : table_ok lens (Z.of_nat R) lut total -> (R <= 15)%nat -> (s < length lens)%nat ->
  1 <= nth s lens 0 <= Z.of_nat R ->
  arun strict (look R lut 0 k) (code_bits lens s ++ rest) = arun strict (k (Z.of_nat s)) rest.
Proof.
  intros [HT TD] HR Hs Hl. set (str := code_bits lens s ++ rest). set (l := nth s lens 0) in *.
  assert (Ls : length str = (Z.to_nat l + length rest)%nat) by (unfold str; rewrite app_length, code_bits_len; reflexivity).
  assert (Sk : skipn (Z.to_nat l) str = rest) by (unfold str; rewrite <- (code_bits_len lens s : length (code_bits lens s) = Z.to_nat l); apply skipn_app_exact).
  set (w := val_of str mod 65536).
  assert (Hw : 0 <= w < 65536) by (apply Z.mod_pos_bound; lia).
  assert (WM : forall k, 0 <= k <= 16 -> w mod 2 ^ k = val_of str mod 2 ^ k).
  { intros k0 Hk. unfold w. change 65536 with (2 ^ 16). apply mod_mod_pow. lia. }
  assert (Ew : w mod 2 ^ l = brev (Z.to_nat l) (code_value lens s)).
  { rewrite WM by lia. pose proof (val_code lens s rest) as V. fold l str in V. rewrite Z2Nat.id in V by lia. exact V. }
  specialize (TD s w Hs ltac:(fold l; lia) Hw Ew). fold l in TD.
  assert (P8 : peek R str = w mod 2 ^ Z.of_nat R) by (rewrite peek_val, WM by lia; reflexivity).
  unfold look. cbn [arun]. rewrite P8, Z.add_0_l. destruct TD as [(Hle & E)|(Hgt & _)]; [|lia]. rewrite E. cbn [fst snd].
  rewrite Ls. destruct (Nat.leb_spec (Z.to_nat l) (Z.to_nat l + length rest)); [|lia]. rewrite Sk. reflexivity.
Qed.

(** * Every bit string starts with a code word *)

Lemma val_of_inj a b : length a = length b -> val_of a = val_of b -> a = b.
Proof. intros L E. rewrite <- (bits_of_val_of a), <- (bits_of_val_of b), L, E. reflexivity. Qed.

Lemma nth_of_len l lens : forall r, 0 <= r < cnt l lens -> exists s, (s < length lens)%nat /\ nth s lens 0 = l /\ cnt l (firstn s lens) = r.
Proof.
  induction lens as [|x t IH]; intros r H; [change (cnt l []) with 0 in H; lia|]. rewrite cnt_cons in H.
  destruct (Z.eqb_spec x l) as [->|N].
  - destruct (Z.eq_dec r 0) as [->|Nr].
    + exists 0%nat. cbn [length nth firstn]. split; [lia|]. split; reflexivity.
    + destruct (IH (r - 1) ltac:(lia)) as (s & Hs & En & Er). exists (S s). cbn [length nth firstn]. rewrite cnt_cons, Z.eqb_refl. split; [lia|]. split; [exact En|lia].
  - destruct (IH r ltac:(lia)) as (s & Hs & En & Er). exists (S s). cbn [length nth firstn]. rewrite cnt_cons.
    destruct (Z.eqb_spec x l); [lia|]. split; [lia|]. split; [exact En|lia].
Qed.

Lemma code_prefix lens str : complete lens -> (15 <= length str)%nat ->
  exists s rest, (s < length lens)%nat /\ 0 < nth s lens 0 /\ str = code_bits lens s ++ rest.
Proof.
  intros CO HL. pose proof (complete_kraft lens CO) as [_ K]. set (ls := run lens (zs 1 15)) in *.
  set (w := val_of str mod 65536). assert (Hw : 0 <= w < 65536) by (apply Z.mod_pos_bound; lia).
  pose proof (brev_range 16 w) as BR. change (2 ^ Z.of_nat 16) with 65536 in BR. rewrite <- K in BR.
  destruct (find_kpos ls _ BR) as (j & Hj & Hk).
  pose proof (run_range lens 1 15) as RR. fold ls in RR. rewrite Forall_forall in RR.
  set (l := nth j ls 0) in *. assert (Hl : 1 <= l < 16) by (apply (RR l), nth_In, Hj).
  pose proof (run_split lens l ltac:(lia)) as SP. fold ls in SP.
  assert (HJ : 0 <= Z.of_nat j - bel l lens < cnt l lens).
  { pose proof (run_length lens (Z.to_nat (l - 1))) as LA. replace (Z.of_nat (Z.to_nat (l - 1)) + 1) with l in LA by lia.
    set (A := run lens (zs 1 (Z.to_nat (l - 1)))) in *. set (B := run lens (zs (l + 1) (Z.to_nat (15 - l)))) in *. pose proof (cnt_nonneg l lens).
    split.
    - destruct (Z_le_gt_dec (bel l lens) (Z.of_nat j)) as [H1|H1]; [lia|]. exfalso.
      assert (X : In l A). { unfold l. rewrite SP, app_nth1 by lia. apply nth_In. lia. }
      apply run_in, zs_in in X. lia.
    - destruct (Z_lt_ge_dec (Z.of_nat j - bel l lens) (cnt l lens)) as [H1|H1]; [exact H1|]. exfalso.
      assert (X : In l B).
      { unfold l. rewrite SP. rewrite app_assoc, app_nth2 by (rewrite app_length, repeat_length; lia). apply nth_In.
        rewrite SP, !app_length, repeat_length in Hj. rewrite app_length, repeat_length. lia. }
      apply run_in, zs_in in X. lia. }
  destruct (nth_of_len l lens _ HJ) as (s & Hs & En & Er).
  pose proof (symbol_place lens s CO Hs ltac:(lia)) as SPL. cbv zeta in SPL. rewrite En, Er in SPL.
  replace (Z.to_nat (bel l lens + (Z.of_nat j - bel l lens))) with j in SPL by lia. fold ls in SPL.
  destruct SPL as (_ & _ & Hv & Kp & _).
  assert (Ew : w mod 2 ^ l = brev (Z.to_nat l) (code_value lens s)).
  { pose proof (wgt_pos l ltac:(lia)) as W. pose proof (wgt_full l ltac:(lia)) as WF.
    assert (Hlt : code_value lens s * wgt l < 65536) by nia.
    pose proof (window_class l (code_value lens s) w ltac:(lia) ltac:(lia) Hlt Hw) as WC. rewrite key_of_pos in WC by lia.
    apply WC. rewrite (kpos_S ls j Hj) in Hk. fold l in Hk. lia. }
  exists s, (skipn (Z.to_nat l) str). split; [exact Hs|]. split; [lia|].
  rewrite <- (firstn_skipn (Z.to_nat l) str) at 1. f_equal.
  apply val_of_inj.
  - rewrite firstn_length, code_bits_len, En. lia.
  - rewrite val_of_firstn. unfold code_bits. rewrite En, val_rev_bits, <- Ew. rewrite Z2Nat.id by lia. unfold w. change 65536 with (2 ^ 16). symmetry. apply mod_mod_pow. lia.
Qed.
