(** JPEGInternals: what every accepted section satisfies. *)
From Verif Require Import Base BitModel BitProofs CodesModel CodesProofs ProgLogic LehmerModel LehmerProofs Tables JpegModel QuantModel QuantProofs Stream InternalsModel InternalsProofs InternalsProofs2 InternalsProofs3.

(** Share of the 16-bit code space taken by [counts], lengths from [i] on. *)
Fixpoint kraft (i : Z) (counts : list Z) : Z :=
  match counts with [] => 0 | c :: r => c * 2 ^ (16 - i) + kraft (i + 1) r end.

(** A Huffman table the JPEG writer can turn into codes: at most 16 bits,
    distinct symbols, one unused longest code (symbol 256), no over-subscription. *)
Definition huff_valid (h : huffcode) : Prop :=
  let total := Z.to_nat (sumZ (hc_counts h)) in
  length (hc_counts h) = 17%nat /\ length (hc_values h) = 257%nat /\
  Forall (fun c => 0 <= c) (hc_counts h) /\ nth 0 (hc_counts h) 0 = 0 /\
  kraft 0 (hc_counts h) <= 2 ^ 16 /\
  (1 <= total <= 257)%nat /\
  NoDup (firstn (total - 1) (hc_values h)) /\
  Forall (fun v => 0 <= v < 256) (firstn (total - 1) (hc_values h)) /\
  nth (total - 1) (hc_values h) 0 = 256 /\
  Forall (fun v => v = 0) (skipn total (hc_values h)) /\
  (0 <= hc_slot h <= 3 \/ 16 <= hc_slot h <= 19).

Fixpoint nodupb (l : list Z) : bool :=
  match l with [] => true | x :: r => negb (existsb (Z.eqb x) r) && nodupb r end.
Lemma nodupb_ok l : nodupb l = true -> NoDup l.
Proof.
  induction l as [|x r IH]; cbn [nodupb]; [constructor|]. rewrite andb_true_iff, negb_true_iff. intros [A B]. constructor; [|auto].
  intros H. assert (existsb (Z.eqb x) r = true); [|congruence]. apply existsb_exists. exists x. split; [exact H|apply Z.eqb_refl].
Qed.
Definition huff_validb (h : huffcode) : bool :=
  let total := Z.to_nat (sumZ (hc_counts h)) in
  (length (hc_counts h) =? 17)%nat && (length (hc_values h) =? 257)%nat &&
  forallb (fun c => 0 <=? c) (hc_counts h) && (nth 0 (hc_counts h) 0 =? 0) &&
  (kraft 0 (hc_counts h) <=? 2 ^ 16) &&
  (1 <=? total)%nat && (total <=? 257)%nat &&
  nodupb (firstn (total - 1) (hc_values h)) &&
  forallb (fun v => (0 <=? v) && (v <? 256)) (firstn (total - 1) (hc_values h)) &&
  (nth (total - 1) (hc_values h) 0 =? 256) &&
  forallb (fun v => v =? 0) (skipn total (hc_values h)) &&
  (((0 <=? hc_slot h) && (hc_slot h <=? 3)) || ((16 <=? hc_slot h) && (hc_slot h <=? 19))).

Lemma Forall_of_b {A} (f : A -> bool) (P : A -> Prop) l : (forall x, f x = true -> P x) -> forallb f l = true -> Forall P l.
Proof. intros H E. apply Forall_forall. intros x Hx. apply H. rewrite forallb_forall in E. auto. Qed.

Lemma huff_validb_ok h : huff_validb h = true -> huff_valid h.
Proof.
  unfold huff_validb, huff_valid. cbv zeta. rewrite !andb_true_iff, orb_true_iff, !andb_true_iff.
  intros (((((((((((A & B) & C) & D) & E) & F) & F') & G) & H) & I) & J) & K).
  apply Nat.eqb_eq in A, B. apply Nat.leb_le in F, F'. apply Z.eqb_eq in D, I. apply Z.leb_le in E.
  repeat (split; [try assumption|]); try lia.
  - eapply Forall_of_b; [|exact C]. cbv beta. lia.
  - apply nodupb_ok, G.
  - eapply Forall_of_b; [|exact H]. cbv beta. lia.
  - eapply Forall_of_b; [|exact J]. cbv beta. lia.
Qed.

Lemma read_counts_pall mc : forall n i total space, (i + n <= 17)%nat -> 0 <= total <= mc -> 0 <= space ->
  pall (fun r => length (fst r) = n /\ Forall (fun c => 0 <= c) (fst r) /\ snd r = total + sumZ (fst r) /\ snd r <= mc /\
                 kraft (Z.of_nat i) (fst r) <= space) (read_counts n i total space mc).
Proof.
  induction n as [|n IH]; intros i total space Hi Ht Hs; cbn [read_counts].
  - cbn. repeat split; try lia. constructor.
  - cbv zeta. set (shift := 16 - Z.of_nat i). assert (Hsh : 0 <= shift) by (unfold shift; lia).
    assert (P : 0 < 2 ^ shift) by (apply Z.pow_pos_nonneg; lia).
    destruct (Z.ltb_spec 0 (Z.min (mc - total) (Z.shiftr space shift))) as [L|L].
    + unfold Read. cbn [pall]. intros c Hc. destruct (Z.ltb_spec (Z.min (mc - total) (Z.shiftr space shift)) c) as [M|M]; [exact I|].
      rewrite Z.shiftr_div_pow2 in M by lia.
      assert (Hcs : c * 2 ^ shift <= space).
      { pose proof (Z.mul_div_le space (2 ^ shift) P). nia. }
      eapply pall_bind; [apply IH; lia|]. intros [cs tot]. cbn [fst snd]. intros (A & B & C & D & E). cbn [pall fst snd length kraft sumZ fold_right].
      fold (sumZ cs). change (16 - Z.of_nat i) with shift. rewrite Nat2Z.inj_succ in E. unfold Z.succ in E.
      split; [lia|]. split; [constructor; [lia|exact B]|]. repeat split; lia.
    + eapply pall_bind; [apply IH; lia|]. intros [cs tot]. cbn [fst snd]. intros (A & B & C & D & E). cbn [pall fst snd length kraft sumZ fold_right].
      fold (sumZ cs). rewrite Nat2Z.inj_succ in E. unfold Z.succ in E.
      split; [lia|]. split; [constructor; [lia|exact B]|]. repeat split; lia.
Qed.

Lemma read_perm_pall : forall n values, NoDup values ->
  pall (fun r => length r = n /\ NoDup r /\ incl r values) (read_perm n values).
Proof.
  induction n as [|n IH]; intros values Hv; cbn [read_perm]; [cbn; repeat split; try constructor; intros ? []|].
  eapply pall_bind; [apply pall_true|]. intros c _. destruct (pc_remove c values) as [[v vs]|] eqn:E; [|exact I].
  apply take_at_perm in E. destruct E as [E _]. pose proof (Permutation.Permutation_NoDup E Hv) as Hn. inversion Hn as [|? ? Hv1 Hv2]; subst.
  eapply pall_bind; [apply IH, Hv2|]. intros r (A & B & C). cbn [pall].
  split; [cbn; lia|]. split; [constructor; [intros X; apply Hv1, C, X|exact B]|].
  intros x [->|Hx]; (eapply Permutation.Permutation_in; [apply Permutation.Permutation_sym, E|]); [left; reflexivity|right; apply C, Hx].
Qed.

Lemma kraft_upd : forall l i k, (k < length l)%nat -> kraft i (upd l k (nth k l 0 + 1)) = kraft i l + 2 ^ (16 - (i + Z.of_nat k)).
Proof.
  induction l as [|c r IH]; intros i k Hk; [cbn in Hk; lia|]. destruct k as [|k].
  - cbn [upd nth kraft]. rewrite Z.add_0_r. lia.
  - cbn [nth]. change (upd (c :: r) (S k) (nth k r 0 + 1)) with (c :: upd r k (nth k r 0 + 1)). cbn [kraft].
    rewrite IH by (cbn in Hk; lia). replace (i + 1 + Z.of_nat k) with (i + Z.of_nat (S k)) by lia. lia.
Qed.
Lemma sumZ_upd : forall l k, (k < length l)%nat -> sumZ (upd l k (nth k l 0 + 1)) = sumZ l + 1.
Proof.
  induction l as [|c r IH]; intros k Hk; [cbn in Hk; lia|]. destruct k as [|k].
  - cbn [upd nth sumZ fold_right]. lia.
  - cbn [nth]. change (upd (c :: r) (S k) (nth k r 0 + 1)) with (c :: upd r k (nth k r 0 + 1)). 
    change (c + sumZ (upd r k (nth k r 0 + 1)) = c + sumZ r + 1). rewrite IH by (cbn in Hk; lia). lia.
Qed.
Lemma kraft_app : forall l i r, kraft i (l ++ r) = kraft i l + kraft (i + Z.of_nat (length l)) r.
Proof.
  induction l as [|c l IH]; intros i r; cbn [kraft app length]; [rewrite Z.add_0_r; reflexivity|].
  rewrite IH. replace (i + 1 + Z.of_nat (length l)) with (i + Z.of_nat (S (length l))) by lia. lia.
Qed.
Lemma kraft_zero : forall n i, kraft i (repeat 0 n) = 0.
Proof. induction n as [|n IH]; intros i; cbn [repeat kraft]; [reflexivity|]. rewrite IH. lia. Qed.
Lemma sumZ_app l r : sumZ (l ++ r) = sumZ l + sumZ r.
Proof. induction l as [|c l IH]; [reflexivity|]. change (c + sumZ (l ++ r) = c + sumZ l + sumZ r). lia. Qed.
Lemma sumZ_zero n : sumZ (repeat 0 n) = 0.
Proof. induction n as [|n IH]; [reflexivity|]. change (0 + sumZ (repeat 0 n) = 0). lia. Qed.
Lemma sumZ_nonneg l : Forall (fun c => 0 <= c) l -> 0 <= sumZ l.
Proof. induction 1 as [|c l H _ IH]; [cbn; lia|]. change (0 <= c + sumZ l). lia. Qed.
Lemma Forall_upd {A} (P : A -> Prop) l k v : Forall P l -> P v -> Forall P (upd l k v).
Proof.
  intros H Hv. revert k. induction H as [|x l Hx Hl IH]; intros k; [destruct k; constructor|].
  destruct k as [|k]; [constructor; assumption|]. change (Forall P (x :: upd l k v)). constructor; auto.
Qed.

Lemma default_values_ok dc : NoDup (default_values dc) /\ Forall (fun v => 0 <= v < 256) (default_values dc) .
Proof.
  assert (H : nodupb (default_values dc) && forallb (fun v => (0 <=? v) && (v <? 256)) (default_values dc) = true)
    by (destruct dc; vm_compute; reflexivity).
  apply andb_true_iff in H. destruct H as [H1 H2]. split.
  - apply nodupb_ok, H1.
  - eapply Forall_of_b; [|exact H2]. cbv beta. lia.
Qed.

Lemma read_complex_pall dc slot last : (0 <= slot <= 3 \/ 16 <= slot <= 19) ->
  pall (fun cv => huff_valid (mkHC (fst cv) (snd cv) slot last)) (read_complex_huff dc).
Proof.
  intros Hslot. unfold read_complex_huff, Read. cbn [pall]. intros v Hv. change (2 ^ Z.of_nat 4) with 16 in Hv. cbv zeta.
  set (ml := (Z.to_nat v + 1)%nat). assert (Hml : (1 <= ml <= 16)%nat) by (unfold ml; lia).
  assert (Hp : 0 < 2 ^ (16 - Z.of_nat ml) <= 2 ^ 16) by (split; [apply Z.pow_pos_nonneg; lia|apply Z.pow_le_mono_r; lia]).
  assert (Hmax : 0 <= max_values dc <= 256) by (destruct dc; cbn; lia).
  eapply pall_bind; [apply read_counts_pall; lia|]. intros [cs total]. cbn [fst snd]. intros (A & B & C & D & E).
  destruct (default_values_ok dc) as [N F].
  eapply pall_bind; [apply read_perm_pall, N|]. intros vs (G & H & J). cbn [pall fst snd].
  assert (St : sumZ (pad_to 17 (0 :: upd cs (ml - 1) (nth (ml - 1) cs 0 + 1))) = total + 1).
  { unfold pad_to. rewrite sumZ_app, sumZ_zero. change (0 + sumZ (upd cs (ml - 1) (nth (ml - 1) cs 0 + 1)) + 0 = total + 1).
    rewrite sumZ_upd by lia. lia. }
  pose proof (sumZ_nonneg cs B) as Hsum.
  unfold huff_valid. cbv zeta. cbn [hc_counts hc_values hc_slot]. rewrite St.
  replace (Z.to_nat (total + 1) - 1)%nat with (length vs) by lia.
  replace (Z.to_nat (total + 1)) with (length (vs ++ [256])) by (rewrite app_length; cbn; lia).
  repeat match goal with |- _ /\ _ => split end.
  - unfold pad_to. rewrite app_length, repeat_length. cbn [length]. rewrite upd_length. lia.
  - unfold pad_to. rewrite !app_length, repeat_length. rewrite ?app_length. cbn [length]. lia.
  - unfold pad_to. apply Forall_app. split.
    + constructor; [lia|]. apply Forall_upd; [exact B|]. rewrite Forall_forall in B. specialize (B (nth (ml - 1) cs 0)). 
      assert (In (nth (ml - 1) cs 0) cs) by (apply nth_In; lia). specialize (B H0). lia.
    + apply Forall_forall. intros x Hx. apply repeat_spec in Hx. lia.
  - reflexivity.
  - unfold pad_to. rewrite kraft_app, kraft_zero. cbn [kraft]. rewrite kraft_upd by lia.
    replace (0 + 1 + Z.of_nat (ml - 1)) with (Z.of_nat ml) by lia. change (0 + 1) with (Z.of_nat 1). lia.
  - rewrite app_length. cbn; lia.
  - rewrite app_length. cbn; lia.
  - unfold pad_to. rewrite <- app_assoc, firstn_app_exact. exact H.
  - unfold pad_to. rewrite <- app_assoc, firstn_app_exact. rewrite Forall_forall in *. intros x Hx. apply F, J, Hx.
  - unfold pad_to. rewrite <- app_assoc, app_nth2, Nat.sub_diag by lia. reflexivity.
  - unfold pad_to. rewrite skipn_app_exact. apply Forall_forall. intros x Hx. apply repeat_spec in Hx. exact Hx.
  - exact Hslot.
Qed.

Lemma stock_huff_valid dc i slot last : (i <= 1)%nat -> (0 <= slot <= 3 \/ 16 <= slot <= 19) ->
  huff_valid (if dc : bool
              then mkHC (pad_to 17 (0 :: nth i kStockDCCounts [])) (pad_to 257 (nth i kStockDCValues [])) slot last
              else mkHC (pad_to 17 (0 :: nth i kStockACCounts [])) (pad_to 257 (nth i kStockACValues [])) slot last).
Proof.
  intros Hi Hs.
  assert (V : forall c vv, huff_valid (mkHC c vv 0 false) -> huff_valid (mkHC c vv slot last)).
  { intros c vv H. unfold huff_valid in *. cbv zeta in *. cbn [hc_counts hc_values hc_slot] in *. tauto. }
  destruct dc; apply V, huff_validb_ok; (destruct i as [|[|i]]; [vm_compute; reflexivity|vm_compute; reflexivity|lia]).
Qed.

Lemma read_huff_pall known : pall huff_valid (read_huff known).
Proof.
  assert (R : forall slot is_dc is_last, (0 <= slot <= 3 \/ 16 <= slot <= 19) ->
    pall huff_valid (Read 1 (fun found =>
        if negb (found =? 0) then
          Read 1 (fun idx =>
            Ret (if is_dc : bool
                 then mkHC (pad_to 17 (0 :: nth (Z.to_nat idx) kStockDCCounts [])) (pad_to 257 (nth (Z.to_nat idx) kStockDCValues [])) slot is_last
                 else mkHC (pad_to 17 (0 :: nth (Z.to_nat idx) kStockACCounts [])) (pad_to 257 (nth (Z.to_nat idx) kStockACValues [])) slot is_last))
        else let! cv := read_complex_huff is_dc in Ret (mkHC (fst cv) (snd cv) slot is_last)))).
  { intros slot is_dc is_last Hs. unfold Read. cbn [pall]. intros found Hf. destruct (negb _).
    - cbn [pall]. intros idx Hidx. change (2 ^ Z.of_nat 1) with 2 in Hidx. apply stock_huff_valid; [lia|exact Hs].
    - eapply pall_bind; [apply read_complex_pall, Hs|]. intros [c vv] H. exact H. }
  unfold read_huff. unfold Read at 1 2. cbn [pall]. intros slot Hslot ac Hac. change (2 ^ Z.of_nat 2) with 4 in Hslot. cbv zeta.
  destruct known; [apply R; destruct (ac =? 0); lia|].
  unfold Read at 1. cbn [pall]. intros l Hl. apply R. destruct (ac =? 0); lia.
Qed.

Lemma read_huffs_pall : forall room, pall (fun hs => Forall huff_valid hs /\ (1 <= length hs <= room)%nat) (read_huffs room).
Proof.
  induction room as [|m IH]; cbn [read_huffs]; [exact I|]. unfold Read. cbn [pall]. intros k Hk. cbv zeta.
  eapply pall_bind; [apply read_huff_pall|]. intros h Hh. destruct (negb (k =? 0)).
  - cbn [pall length]. split; [constructor; [exact Hh|constructor]|lia].
  - destruct m; [exact I|]. eapply pall_bind; [exact IH|]. intros r [A B]. cbn [pall length]. split; [constructor; assumption|lia].
Qed.

Lemma read_markers_pall fuel : pall markers_ok (read_markers fuel).
Proof.
  induction fuel as [|f IH]; cbn [read_markers]; [exact I|]. unfold Read. cbn [pall]. intros v Hv. change (2 ^ Z.of_nat 6) with 64 in Hv.
  destruct (Z.eqb_spec (192 + v) 217) as [E|E].
  - cbn [pall]. exists []. split; [cbn; f_equal; exact E|constructor].
  - eapply pall_bind; [exact IH|]. intros r (body & -> & H). cbn [pall]. exists ((192 + v) :: body). split; [reflexivity|].
    constructor; [lia|exact H].
Qed.

(** ** Scans *)
Lemma decode_varint_pall n : (n <= 64)%nat -> pall (fun v => 0 <= v < 2 ^ Z.of_nat n) (decode_varint n).
Proof.
  intros Hn. unfold decode_varint.
  enough (H : forall rem i v, (rem + i = n)%nat -> 0 <= v < 2 ^ Z.of_nat i -> pall (fun v => 0 <= v < 2 ^ Z.of_nat n) (decode_varint_loop rem i v)) by (apply H; [lia|cbn; lia]).
  induction rem as [|rem IH]; intros i v Hr Hv; cbn [decode_varint_loop].
  - replace n with i by lia. exact Hv.
  - assert (D : pall (fun v => 0 <= v < 2 ^ Z.of_nat n) (Need 1 (Read 1 (fun b => decode_varint_loop rem (S i) (Z.lor v (Z.shiftl b (Z.of_nat i) mod 2 ^ 64)))))).
    { unfold Read. cbn [pall]. intros b Hb. change (2 ^ Z.of_nat 1) with 2 in Hb. apply IH; [lia|].
      rewrite Z.shiftl_mul_pow2 by lia.
      assert (P : 0 < 2 ^ Z.of_nat i) by (apply Z.pow_pos_nonneg; lia).
      assert (Q : 2 * 2 ^ Z.of_nat i <= 2 ^ 64) by (rewrite <- Z.pow_succ_r by lia; apply Z.pow_le_mono_r; lia).
      rewrite Z.mod_small by nia. rewrite lor_disjoint_add by lia.
      rewrite Nat2Z.inj_succ, Z.pow_succ_r by lia. nia. }
    destruct rem; [exact D|]. unfold Read at 1. cbn [pall]. intros c Hc. destruct (c =? 0); [|exact D].
    cbn [pall]. split; [lia|]. eapply Z.lt_le_trans; [apply Hv|]. apply Z.pow_le_mono_r; lia.
Qed.

Lemma read_scan_comps_pall : forall n, pall (fun l => length l = n /\ Forall comp_ok l) (read_scan_comps n).
Proof.
  induction n as [|n IH]; cbn [read_scan_comps]; [cbn; split; [reflexivity|constructor]|]. unfold Read. cbn [pall]. intros a Ha b Hb c Hc.
  change (2 ^ Z.of_nat 2) with 4 in *. eapply pall_bind; [exact IH|]. intros r [A B]. cbn [pall length].
  split; [lia|]. constructor; [|exact B]. unfold comp_ok. cbn. lia.
Qed.

Lemma read_resets_pall : forall fuel last, -1 <= last -> pall (resets_ok last) (read_resets fuel last).
Proof.
  induction fuel as [|f IH]; intros last Hl; cbn [read_resets]; [exact I|]. unfold Read. cbn [pall]. intros c Hc. destruct (c =? 0); [exact I|].
  eapply pall_bind; [apply decode_varint_pall; lia|]. intros v Hv. cbv beta in Hv. change (Z.of_nat 28) with 28 in Hv. cbv zeta. destruct (Z.ltb_spec (2 ^ 30) (last + v + 1)); [exact I|].
  cbv beta in Hv. eapply pall_bind; [apply IH; lia|]. intros r Hr. cbn [pall resets_ok]. split; [lia|]. split; [lia|exact Hr].
Qed.

(** Strictly increasing block numbers within the limit, every run non-empty. *)
Fixpoint runs_wok (last : Z) (l : list (Z * Z)) : Prop :=
  match l with [] => True | (b, n) :: r => last < b <= 2 ^ 30 /\ 0 < n /\ runs_wok b r end.

(** [read_runs] with a run of [num] zero runs pending at [last]. *)
Lemma read_runs_pall : forall fuel last num prev, -1 <= prev -> 0 <= num -> 0 <= last <= 2 ^ 30 ->
  (num = 0 -> last = 0 /\ prev = -1) -> (0 < num -> prev < last) ->
  pall (runs_wok prev) (read_runs fuel last num).
Proof.
  induction fuel as [|f IH]; intros last num prev Hp Hn Hl H0 H1; cbn [read_runs]; [exact I|]. unfold Read. cbn [pall]. intros c Hc. destruct (c =? 0).
  - cbn [pall]. destruct (Z.ltb_spec 0 num) as [L|L]; [cbn; repeat split; lia|exact I].
  - eapply pall_bind; [apply decode_varint_pall; lia|]. intros v Hv. cbv beta in Hv. change (Z.of_nat 28) with 28 in Hv. cbv zeta. destruct (Z.ltb_spec (2 ^ 30) (last + v)); [exact I|].
    destruct (Z.ltb_spec last (last + v)) as [L|L]; cbn [andb].
    + destruct (Z.ltb_spec 0 num) as [M|M].
      * eapply pall_bind; [apply (IH _ _ last); lia|]. intros r Hr. cbn [pall app runs_wok]. repeat split; try lia. exact Hr.
      * eapply pall_bind; [apply (IH _ _ prev); lia|]. intros r Hr. exact Hr.
    + replace (last + v) with last by lia. eapply pall_bind; [apply (IH _ _ prev); lia|]. intros r Hr. exact Hr.
Qed.

Definition scan_valid (s : scaninfo) : Prop :=
  0 <= si_ss s < 64 /\ 0 <= si_se s < 64 /\ 0 <= si_ah s < 16 /\ 0 <= si_al s < 16 /\
  (1 <= length (si_comps s) <= 4)%nat /\ Forall comp_ok (si_comps s) /\
  resets_ok (-1) (si_resets s) /\ runs_wok (-1) (si_zero_runs s).

Lemma read_scan_pall fuel : pall scan_valid (read_scan fuel).
Proof.
  unfold read_scan, Read. cbn [pall]. intros ss Hss se Hse ah Hah al Hal nc Hnc.
  change (2 ^ Z.of_nat 6) with 64 in *. change (2 ^ Z.of_nat 4) with 16 in *. change (2 ^ Z.of_nat 2) with 4 in *.
  eapply pall_bind; [apply read_scan_comps_pall|]. intros comps [A B].
  eapply pall_bind; [apply read_resets_pall; lia|]. intros rs C.
  eapply pall_bind; [apply (read_runs_pall fuel 0 0 (-1)); lia|]. intros zs D.
  cbn [pall]. unfold scan_valid. cbn [si_ss si_se si_ah si_al si_comps si_resets si_zero_runs].
  repeat split; try lia; assumption.
Qed.

Lemma read_scans_pall fuel : forall n, pall (fun l => length l = n /\ Forall scan_valid l) (read_scans n fuel).
Proof.
  induction n as [|n IH]; cbn [read_scans]; [cbn; split; [reflexivity|constructor]|].
  eapply pall_bind; [apply read_scan_pall|]. intros s Hs. eapply pall_bind; [exact IH|]. intros r [A B]. cbn [pall length].
  split; [lia|constructor; assumption].
Qed.

Lemma read_quant_heads_pall : forall n, pall (fun l => length l = n /\ Forall qhead_ok l) (read_quant_heads n).
Proof.
  induction n as [|n IH]; cbn [read_quant_heads]; [cbn; split; [reflexivity|constructor]|].
  assert (R : forall ix l, 0 <= ix < 4 -> pall (fun l => length l = S n /\ Forall qhead_ok l)
     (Read 4 (fun prec => if 1 <? prec then Fail else let! r := read_quant_heads n in Ret ((ix, l, prec) :: r)))).
  { intros ix l Hix. unfold Read. cbn [pall]. intros prec Hprec. destruct (Z.ltb_spec 1 prec); [exact I|].
    eapply pall_bind; [exact IH|]. intros r [A B]. cbn [pall length]. split; [lia|]. constructor; [|exact B]. unfold qhead_ok. lia. }
  unfold Read at 1. cbn [pall]. intros ix Hix. change (2 ^ Z.of_nat 2) with 4 in Hix. cbv zeta.
  destruct n as [|m]; [apply R, Hix|]. unfold Read at 1. cbn [pall]. intros l Hl. apply R, Hix.
Qed.

Lemma read_n_pall bits : forall n, pall (fun l => length l = n /\ Forall (fun v => 0 <= v < 2 ^ Z.of_nat bits) l) (read_n n bits).
Proof.
  induction n as [|n IH]; cbn [read_n]; [cbn; split; [reflexivity|constructor]|]. unfold Read. cbn [pall]. intros v Hv.
  eapply pall_bind; [exact IH|]. intros r [A B]. cbn [pall length]. split; [lia|constructor; assumption].
Qed.

Lemma pad_to_byte n l : (length l <= n)%nat -> Forall (fun v => 0 <= v < 256) l ->
  length (pad_to n l) = n /\ Forall (fun v => 0 <= v < 256) (pad_to n l).
Proof.
  intros Hl H. unfold pad_to. rewrite app_length, repeat_length. split; [lia|]. apply Forall_app. split; [exact H|].
  apply Forall_forall. intros x Hx. apply repeat_spec in Hx. lia.
Qed.

Lemma read_ids_pall n : pall (fun l => length l = n /\ Forall (fun v => 0 <= v < 256) l) (read_ids n).
Proof.
  unfold read_ids, Read. cbn [pall]. intros sc Hsc. destruct (sc =? 0).
  { destruct (Nat.ltb_spec n 3); [exact I|]. cbn [pall]. apply pad_to_byte; [cbn; lia|repeat constructor; lia]. }
  destruct (sc =? 1).
  { destruct (Nat.ltb_spec n 1); [exact I|]. cbn [pall]. apply pad_to_byte; [cbn; lia|repeat constructor; lia]. }
  destruct (sc =? 2).
  { destruct (Nat.ltb_spec n 3); [exact I|]. cbn [pall]. apply pad_to_byte; [cbn; lia|repeat constructor; lia]. }
  apply (read_n_pall 8).
Qed.

(** What a decoded JPEGInternals section always satisfies. *)
Definition internals_valid (w h : Z) (ncomp : nat) (x : internals) : Prop :=
  markers_ok (in_markers x) /\
  0 <= in_restart x < 65536 /\ (~ In 221 (in_markers x) -> in_restart x = 0) /\
  Forall huff_valid (in_huff x) /\ (1 <= length (in_huff x) <= 512)%nat /\
  length (filter hc_last (in_huff x)) = count_marker 196 (in_markers x) /\
  Forall scan_valid (in_scans x) /\ length (in_scans x) = count_marker 218 (in_markers x) /\
  Forall qhead_ok (in_quant x) /\ (1 <= length (in_quant x) <= 4)%nat /\
  Forall (fun v => 0 <= v < 256) (in_ids x) /\ length (in_ids x) = ncomp /\
  Forall (fun v => 0 <= v < 2) (in_padding x) /\ Z.of_nat (length (in_padding x)) <= padding_bits_limit w h ncomp /\
  (in_zero_pad x = true <-> in_padding x <> []).

Lemma count_marker_not v m : (0 < count_marker v m)%nat -> In v m.
Proof.
  unfold count_marker. induction m as [|x r IH]; cbn [filter]; [cbn; lia|]. destruct (Z.eqb_spec v x) as [->|].
  - intros _. left; reflexivity.
  - intros H. right. apply IH, H.
Qed.

Lemma decode_limited_varint_pall k n : (n * k <= 63)%nat -> pall (fun v => 0 <= v) (decode_limited_varint k n).
Proof.
  intros _. unfold decode_limited_varint.
  enough (H : forall rem i v, 0 <= v -> pall (fun v => 0 <= v) (decode_limited_varint_loop k rem i v)) by (apply H; lia).
  induction rem as [|rem IH]; intros i v Hv; cbn [decode_limited_varint_loop]; [exact Hv|].
  unfold Read. cbn [pall]. intros c Hc. destruct (c =? 0); [exact Hv|]. cbn [pall]. intros d Hd. apply IH.
  apply Z.lor_nonneg. split; [exact Hv|]. apply Z.mod_pos_bound. lia.
Qed.

Lemma read_internals_pall fuel w h n : pall (internals_valid w h n) (read_internals fuel w h n).
Proof.
  unfold read_internals. eapply pall_bind; [apply read_markers_pall|]. intros m Hm.
  eapply (pall_bind (fun r => 0 <= r < 65536 /\ (~ In 221 m -> r = 0))).
  { destruct (Nat.ltb_spec 0 (count_marker 221 m)) as [L|L].
    - unfold Read. cbn [pall]. intros v Hv. change (2 ^ Z.of_nat 16) with 65536 in Hv. split; [lia|]. intros X. destruct X. apply count_marker_not, L.
    - cbn [pall]. lia. }
  intros rs [R1 R2]. eapply pall_bind; [apply read_huffs_pall|]. intros hs [H1 H2].
  destruct (Nat.eqb_spec (count_marker 196 m) (length (filter hc_last hs))) as [E|E]; cbn [negb]; [|exact I].
  eapply pall_bind; [apply read_scans_pall|]. intros sc [S1 S2].
  eapply (pall_bind (fun l => (1 <= length l <= 4)%nat /\ Forall qhead_ok l)).
  { unfold Read. cbn [pall]. intros k Hk. change (2 ^ Z.of_nat 2) with 4 in Hk. eapply pall_mono; [|apply read_quant_heads_pall].
    cbv beta. intros l [A B]. split; [lia|exact B]. }
  intros qs [Q1 Q2]. eapply pall_bind; [apply read_ids_pall|]. intros ids [I1 I2].
  eapply (pall_bind (fun l => Z.of_nat (length l) <= padding_bits_limit w h n /\ Forall (fun v => 0 <= v < 2) l)).
  { unfold read_padding. eapply pall_bind; [apply decode_limited_varint_pall; lia|]. intros k Hk. cbv beta in Hk.
    destruct (Z.ltb_spec (padding_bits_limit w h n) k); [exact I|]. eapply pall_mono; [|apply read_n_pall].
    cbv beta. intros l [A B]. split; [lia|exact B]. }
  intros pad [P1 P2]. cbn [pall]. unfold internals_valid. cbn [in_markers in_restart in_huff in_scans in_quant in_ids in_zero_pad in_padding].
  repeat match goal with |- _ /\ _ => split end; try assumption; try lia.
  destruct pad as [|a pad]; [split; [discriminate|congruence]|]. split; [discriminate|reflexivity].
Qed.

(** ** Byte-level outcomes *)
Fixpoint ball {A} (P : A -> Prop) (p : bprog A) : Prop :=
  match p with
  | BRet a => P a
  | BFail => True
  | BByte k => forall v, ball P (k v)
  | BBase128 k => forall v, ball P (k v)
  | BBytes acc n k => forall d, ball P (k d)
  | BPos k => forall v, ball P (k v)
  end.
Lemma ball_bind {A B} (P : A -> Prop) (Q : B -> Prop) g : (forall a, P a -> ball Q (g a)) -> forall p, ball P p -> ball Q (bbind p g).
Proof. intros Hg. induction p; cbn [ball bbind]; intros; auto. Qed.
Lemma brun_ball {A} (P : A -> Prop) D e avail : forall (p : bprog A) pos, ball P p ->
  match brun D e p pos avail with RDone x _ => P x | RFail => True | RMore s => ball P (fst s) end.
Proof.
  induction p as [a| |k IH|k IH|acc n k IH|k IH]; intros pos H; cbn [brun ball] in *; auto.
  - destruct (_ <? _)%nat; [apply IH, H|exact H].
  - destruct (decode_base128 _); [apply IH, H|destruct e; [destruct (_ <=? _)%nat|]; cbn; auto|exact I].
  - cbv zeta. destruct (_ <=? 0); [apply IH, H|exact H].
  - apply IH, H.
Qed.
Lemma read_inter_ball e : forall m, ball (fun ds => length ds = count_marker 255 m) (read_inter m e).
Proof.
  induction m as [|x r IH]; cbn [read_inter ball]; [reflexivity|]. unfold count_marker. cbn [filter]. rewrite ?(Z.eqb_sym x 255). destruct (255 =? x).
  - cbn [ball]. intros len pos; destruct (_ <? _); [exact I|]. cbn [ball]. intros d. eapply ball_bind; [|exact IH]. cbn. intros ds H. f_equal. exact H.
  - exact IH.
Qed.

Definition jgood (w h : Z) (nc : nat) (y : internals * list (list Z)) : Prop :=
  internals_valid w h nc (fst y) /\ length (snd y) = count_marker 255 (in_markers (fst y)).

Lemma jcall_good D n w h nc N y q : bytes D -> (n <= N)%nat -> (N <= length D)%nat ->
  jcall D n (jinit n w h nc) N = RDone y q -> jgood w h nc y /\ q = n.
Proof.
  intros Hb Hn HN E. unfold jinit in E. cbn [jcall] in E. rewrite Nat.min_r in E by lia.
  assert (Ln : length (firstn n D) = n) by (rewrite firstn_length; lia).
  pose proof (section_full_asection false (firstn n D) (read_internals (8 * n + 1) w h nc) (firstn_bytes n D Hb) (read_internals_bok _ _ _ _)) as S.
  rewrite Ln in S. rewrite S in E. clear S. unfold asection in E. cbn [negb] in E.
  destruct (arun true _ _) as [[x r]|] eqn:A; [|discriminate]. apply (arun_pall _ _ _ _ _ _ (read_internals_pall _ _ _ _)) in A.
  cbv zeta in E. destruct (forallb _ _); [|discriminate]. cbv beta iota in E. unfold jbytes in E.
  match type of E with context [brun D (Some n) ?p ?c N] => pose proof (brun_ball _ D (Some n) N p c (read_inter_ball n (in_markers x))) as B; destruct (brun D (Some n) p c N) as [ds q'| |[? ?]] end; try discriminate.
  destruct (Nat.eqb_spec q' n); [|discriminate]. injection E as <- <-. split; [split; [exact A|exact B]|assumption].
Qed.
