(** BitReaderState returns the bits of the unstuffed scan data and resumes parsing right
    behind them. *)
From Verif Require Import Base JBitModel JWriteProofs.

(** [l] is found in [data] at offset [p]. *)
Definition sl {A} (data : list A) (p : Z) (l : list A) : Prop :=
  exists pre rest, data = pre ++ l ++ rest /\ p = Z.of_nat (length pre).

Lemma aget_Some {A} (l : list A) i a : aget l i = JOk a <-> 0 <= i /\ nth_error l (Z.to_nat i) = Some a.
Proof.
  unfold aget. destruct (Z.ltb_spec i 0) as [H|H].
  - split; [discriminate|]. intros [H1 _]; lia.
  - destruct (nth_error l (Z.to_nat i)); split; intros E; try discriminate.
    + inversion E; auto.
    + destruct E as [_ E]. inversion E; reflexivity.
    + destruct E as [_ E]; discriminate.
Qed.

Lemma aget_in {A} (l : list A) i : 0 <= i < Z.of_nat (length l) -> exists a, aget l i = JOk a.
Proof.
  intros H. destruct (nth_error l (Z.to_nat i)) as [a|] eqn:E.
  - exists a. apply aget_Some. split; [lia|exact E].
  - apply nth_error_None in E. lia.
Qed.

Lemma aget_bound {A} (l : list A) i a : aget l i = JOk a -> 0 <= i < Z.of_nat (length l).
Proof. intros E. apply aget_Some in E as [H E]. assert (nth_error l (Z.to_nat i) <> None) as N by congruence. apply nth_error_Some in N. lia. Qed.

Lemma aget_noerr {A} (l : list A) i : aget l i <> JErr.
Proof. unfold aget. destruct (i <? 0); [discriminate|]. destruct (nth_error _ _); discriminate. Qed.

Lemma aget_In {A} (l : list A) i a : aget l i = JOk a -> In a l.
Proof. intros E. apply aget_Some in E as [_ E]. eapply nth_error_In; eauto. Qed.

Lemma aget_byte data i c : bytes data -> aget data i = JOk c -> is_byte c.
Proof. intros Y E. unfold bytes in Y. rewrite Forall_forall in Y. apply Y. eapply aget_In; eauto. Qed.

Lemma sl_aget {A} (data : list A) p l i a : sl data p l -> nth_error l i = Some a -> aget data (p + Z.of_nat i) = JOk a.
Proof.
  intros [pre [rest [-> ->]]] E. apply aget_Some. split; [lia|].
  rewrite nth_error_app2 by lia. replace (Z.to_nat (Z.of_nat (length pre) + Z.of_nat i) - length pre)%nat with i by lia.
  rewrite nth_error_app1; [exact E|]. apply nth_error_Some. congruence.
Qed.

Lemma sl_snoc {A} (data : list A) p l c : sl data p l -> aget data (p + Z.of_nat (length l)) = JOk c -> sl data p (l ++ [c]).
Proof.
  intros [pre [rest [E ->]]] G. apply aget_Some in G as [_ G].
  rewrite E, app_assoc, nth_error_app2 in G by (rewrite app_length; lia).
  rewrite app_length in G. replace (_ - _)%nat with 0%nat in G by lia.
  destruct rest as [|x rest]; [discriminate|]. cbn [nth_error] in G. injection G as ->.
  exists pre, rest. split; [|reflexivity]. rewrite E, <- app_assoc. reflexivity.
Qed.

Lemma sl_prefix {A} (data : list A) p l1 l2 : sl data p (l1 ++ l2) -> sl data p l1.
Proof. intros [pre [rest [E P]]]. exists pre, (l2 ++ rest). split; [|exact P]. rewrite E, <- app_assoc. reflexivity. Qed.

Lemma sl_suffix {A} (data : list A) p l1 l2 : sl data p (l1 ++ l2) -> sl data (p + Z.of_nat (length l1)) l2.
Proof. intros [pre [rest [E P]]]. exists (pre ++ l1), rest. rewrite E, P, app_length, <- !app_assoc. split; [reflexivity|lia]. Qed.

Lemma sl_join {A} (data : list A) p l1 l2 : sl data p l1 -> sl data (p + Z.of_nat (length l1)) l2 -> sl data p (l1 ++ l2).
Proof.
  intros [pre [rest [E P]]] [pre2 [rest2 [E2 P2]]].
  exists pre, rest2. split; [|exact P].
  assert (X : pre ++ l1 = pre2 /\ rest = l2 ++ rest2).
  { rewrite E, app_assoc in E2. apply app_len_inj in E2; [exact E2|]. rewrite app_length. lia. }
  destruct X as [X1 X2]. rewrite E, X2, <- app_assoc. reflexivity.
Qed.

Lemma sl_nil {A} (data : list A) p : 0 <= p <= Z.of_nat (length data) -> sl data p [].
Proof.
  intros H. exists (firstn (Z.to_nat p) data), (skipn (Z.to_nat p) data). cbn [app]. rewrite firstn_skipn, firstn_length. split; [reflexivity|lia].
Qed.

Lemma sl_bound {A} (data : list A) p l : sl data p l -> 0 <= p /\ p + Z.of_nat (length l) <= Z.of_nat (length data).
Proof. intros [pre [rest [-> ->]]]. rewrite !app_length. lia. Qed.

Lemma sl_bytes data p l : bytes data -> sl data p l -> bytes l.
Proof. intros Y [pre [rest [E _]]]. rewrite E in Y. apply bytes_app in Y as [_ Y]. apply bytes_app in Y as [Y _]. exact Y. Qed.

Lemma sl_all {A} (data : list A) l : sl data 0 l -> Z.of_nat (length l) = Z.of_nat (length data) -> l = data.
Proof.
  intros [pre [rest [E P]]] L. destruct pre; [|cbn [length] in P; lia]. cbn [app] in E.
  rewrite E in L. rewrite app_length in L. destruct rest; [|cbn [length] in L; lia]. rewrite app_nil_r in E. auto.
Qed.

Lemma stuff_snoc l b : stuff (l ++ [b]) = stuff l ++ stuff [b].
Proof. apply stuff_app. Qed.

Lemma stuff_last l : stuff l <> [] -> exists l' b, stuff l = l' ++ [b] /\ b <> 255.
Proof.
  destruct l as [|x l _] using rev_ind; [intros H; exfalso; apply H; reflexivity|].
  intros _. rewrite stuff_snoc. assert (X : stuff [x] = if x =? 255 then [255; 0] else [x]) by (unfold stuff; cbn [flat_map]; rewrite app_nil_r; destruct (Z.eqb_spec x 255); subst; reflexivity). rewrite X.
  destruct (Z.eqb_spec x 255) as [->|N].
  - exists (stuff l ++ [255]), 0. rewrite <- app_assoc. split; [reflexivity|lia].
  - exists (stuff l), x. auto.
Qed.

Lemma stuff_ff l i : nth_error (stuff l) i = Some 255 -> nth_error (stuff l) (S i) = Some 0.
Proof.
  revert i; induction l as [|b l IH]; intros i E; [destruct i; discriminate|].
  unfold stuff in *. cbn [flat_map] in *. destruct (Z.eqb_spec b 255) as [->|N].
  - destruct i as [|[|i]]; cbn [app nth_error] in *; [reflexivity|discriminate|]. apply IH, E.
  - destruct i as [|i]; cbn [app nth_error] in *; [congruence|]. apply IH, E.
Qed.

(** * Bytes delivered by GetNextByte *)

(** After the bytes [B] were returned for a segment that starts at [p0]: [L] are genuine
    scan bytes, [E] was invented at a marker or at the end of the data. *)
Definition source (data : list Z) (p0 : Z) (L E : list Z) (pos next : Z) : Prop :=
  let len := Z.of_nat (length data) in
  let pL := p0 + Z.of_nat (length (stuff L)) in
  1 <= p0 /\ sl data p0 (stuff L)
  /\ (forall L' b, L = L' ++ [b] -> p0 + Z.of_nat (length (stuff L')) < len - 2)
  /\ ((E = [] /\ pos = pL /\ next = len - 2)
      \/ (exists j, E = 255 :: repeat 0 j /\ next = pL /\ pos = pL + 1 + Z.of_nat j /\ pL < len - 2
                 /\ aget data pL = JOk 255 /\ aget data (pL + 1) <> JOk 0)
      \/ (exists j, E = repeat 0 (S j) /\ next = len - 2 /\ len - 2 <= pL /\ pos = pL + Z.of_nat (S j))).

Lemma repeat_snoc {A} (a : A) n : repeat a (S n) = repeat a n ++ [a].
Proof. induction n as [|n IH]; [reflexivity|]. cbn [repeat app] in *. rewrite <- IH. reflexivity. Qed.

Lemma get_byte_ok data p0 L E s : bytes data -> source data p0 L E (br_pos s) (br_next s) ->
  exists b s' L' E', get_byte data s = JOk (b, s') /\ source data p0 L' E' (br_pos s') (br_next s')
    /\ L' ++ E' = (L ++ E) ++ [b] /\ br_val s' = br_val s /\ br_left s' = br_left s /\ is_byte b.
Proof.
  intros Y (P1 & SL & RD & C). unfold get_byte.
  set (len := Z.of_nat (length data)) in *. set (pL := p0 + Z.of_nat (length (stuff L))) in *.
  destruct (Z.leb_spec (br_next s) (br_pos s)) as [H|H].
  - eexists; eexists. exists L, (E ++ [0]). split; [reflexivity|]. cbn [br_pos br_next br_val br_left].
    split; [|split; [rewrite app_assoc; reflexivity|repeat split; unfold is_byte in *; lia]].
    split; [exact P1|]. split; [exact SL|]. split; [exact RD|]. fold pL len.
    destruct C as [(-> & Ep & En)|[[j (-> & En & Ep & Hl & M1 & M2)]|[j (-> & En & Hl & Ep)]]].
    + right; right. exists 0%nat. cbn [app repeat]. split; [reflexivity|]. lia.
    + right; left. exists (S j). rewrite repeat_snoc. cbn [app]. split; [reflexivity|]. repeat split; try assumption; lia.
    + right; right. exists (S j). rewrite (repeat_snoc 0 (S j)). split; [reflexivity|]. lia.
  - destruct C as [(-> & Ep & En)|[[j (-> & En & Ep & Hl & M1 & M2)]|[j (-> & En & Hl & Ep)]]]; try lia.
    destruct (aget_in data (br_pos s)) as [c Ec]; [lia|]. rewrite Ec. cbn [jbind].
    assert (Yc : is_byte c) by (eapply aget_byte; eauto).
    assert (S1 : sl data p0 (stuff L ++ [c])) by (apply sl_snoc; [exact SL|]; fold pL; rewrite <- Ep; exact Ec).
    destruct (Z.eqb_spec c 255) as [->|N].
    + destruct (aget_in data (br_pos s + 1)) as [e Ee]; [lia|]. rewrite Ee. cbn [jbind].
      destruct (Z.eqb_spec e 0) as [->|Ne].
      * eexists; eexists. exists (L ++ [255]), []. split; [reflexivity|]. cbn [br_pos br_next br_val br_left].
        split; [|split; [rewrite !app_nil_r; reflexivity|repeat split; unfold is_byte in *; lia]].
        split; [exact P1|]. rewrite stuff_snoc. change (stuff [255]) with [255; 0].
        split; [|split].
        -- replace (stuff L ++ [255; 0]) with ((stuff L ++ [255]) ++ [0]) by (rewrite <- app_assoc; reflexivity).
           apply sl_snoc; [exact S1|]. rewrite app_length. cbn [length].
           replace (p0 + _) with (br_pos s + 1) by (unfold pL in *; lia). exact Ee.
        -- intros L' b E. apply app_inj_tail in E as [<- _]. fold pL len. lia.
        -- left. split; [reflexivity|]. rewrite app_length. cbn [length]. fold len. unfold pL in *. lia.
      * eexists; eexists. exists L, [255]. split; [reflexivity|]. cbn [br_pos br_next br_val br_left].
        split; [|split; [rewrite app_nil_r; reflexivity|repeat split; unfold is_byte in *; lia]].
        split; [exact P1|]. split; [exact SL|]. split; [exact RD|]. right; left. exists 0%nat. fold pL len. cbn [repeat].
        split; [reflexivity|]. split; [lia|]. split; [lia|]. split; [lia|]. rewrite <- Ep. split; [exact Ec|]. rewrite Ee. congruence.
    + eexists; eexists. exists (L ++ [c]), []. split; [reflexivity|]. cbn [br_pos br_next br_val br_left].
      split; [|split; [rewrite !app_nil_r; reflexivity|repeat split; unfold is_byte in *; lia]].
      split; [exact P1|]. rewrite stuff_snoc, (stuff_small c) by exact N.
      split; [exact S1|]. split.
      * intros L' b E. apply app_inj_tail in E as [<- _]. fold pL len. lia.
      * left. split; [reflexivity|]. rewrite app_length. cbn [length]. fold len. unfold pL in *. lia.
Qed.

(** * The bit window *)

(** [U] are the bits consumed so far; [B] the bytes fetched. *)
Definition bri (data : list Z) (p0 : Z) (U : list bool) (s : bitr) : Prop :=
  exists L E V, source data p0 L E (br_pos s) (br_next s)
    /\ byte_bits (L ++ E) = U ++ V /\ br_left s = Z.of_nat (length V) /\ (length V <= 64)%nat
    /\ 0 <= br_val s < 2 ^ 64 /\ br_val s mod 2 ^ br_left s = mval V.

Lemma fill_loop_ok data p0 U : bytes data -> forall fuel s, bri data p0 U s -> br_left s <= 64 -> 57 <= br_left s + 8 * Z.of_nat fuel ->
  exists s', fill_loop fuel data s = JOk s' /\ bri data p0 U s' /\ 57 <= br_left s'.
Proof.
  intros Y. induction fuel as [|f IH]; intros s I L64 Hf.
  - cbn [fill_loop]. destruct (Z.leb_spec (br_left s) 56); [lia|]. exists s. split; [reflexivity|]. split; [exact I|lia].
  - cbn [fill_loop]. destruct (Z.leb_spec (br_left s) 56) as [H|H].
    + pose proof I as (L & E & V & SRC & EB & EL & LV & RV & EV).
      destruct (get_byte_ok data p0 L E s Y SRC) as (b & s1 & L1 & E1 & G & SRC1 & EB1 & Ev1 & El1 & Yb).
      rewrite G. cbn [jbind].
      destruct (IH (mkBR (br_pos s1) (Z.lor (Z.shiftl (br_val s) 8 mod 2 ^ 64) b) (br_left s + 8) (br_next s1))) as [s' [R [I' L']]].
      * exists L1, E1, (V ++ mbits 8 b). cbn [br_pos br_next br_left br_val].
        split; [exact SRC1|]. split.
        { rewrite EB1, byte_bits_app, EB, byte_bits_one, app_assoc. reflexivity. }
        rewrite app_length, mbits_length. split; [lia|]. split; [lia|].
        rewrite Z.lor_comm, Z.shiftl_mul_pow2 by lia.
        assert (M8 : (br_val s * 2 ^ 8) mod 2 ^ 64 = (br_val s mod 2 ^ 56) * 2 ^ 8).
        { change (2 ^ 64) with (2 ^ 56 * 2 ^ 8). apply Z.mul_mod_distr_r; lia. }
        rewrite M8. rewrite lor_disjoint_add by (unfold is_byte in Yb; change (2 ^ 8) with 256; lia).
        pose proof (Z.mod_pos_bound (br_val s) (2 ^ 56) ltac:(lia)) as B56.
        unfold is_byte in Yb.
        split; [change (2 ^ 8) with 256; change (2 ^ 64) with (2 ^ 56 * 256); lia|].
        rewrite mval_app, mbits_length, mval_mbits_small by (change (2 ^ Z.of_nat 8) with 256; lia).
        rewrite <- EV. change (Z.of_nat 8) with 8.
        replace (2 ^ (br_left s + 8)) with (2 ^ 8 * 2 ^ br_left s) by (rewrite Z.pow_add_r by lia; ring).
        pose proof (pow2_pos (br_left s) ltac:(lia)).
        rewrite Z.rem_mul_r by lia.
        replace (b + br_val s mod 2 ^ 56 * 2 ^ 8) with (br_val s mod 2 ^ 56 * 2 ^ 8 + b) by lia.
        rewrite Z.div_add_l by lia. rewrite (Z.div_small b) by (change (2 ^ 8) with 256; lia).
        rewrite (Z.add_comm _ b), Z.mod_add by lia. rewrite (Z.mod_small b) by (change (2 ^ 8) with 256; lia).
        rewrite Z.add_0_r.
        replace (br_val s mod 2 ^ 56 mod 2 ^ br_left s) with (br_val s mod 2 ^ br_left s); [lia|].
        replace (2 ^ 56) with (2 ^ br_left s * 2 ^ (56 - br_left s)) by (rewrite <- Z.pow_add_r by lia; f_equal; lia).
        pose proof (pow2_pos (56 - br_left s) ltac:(lia)).
        rewrite Z.rem_mul_r by lia. rewrite (Z.mul_comm (2 ^ _) (_ mod _)), Z.mod_add by lia. rewrite Z.mod_mod by lia. reflexivity.
      * cbn [br_left]. lia.
      * cbn [br_left]. lia.
      * exists s'. auto.
    + exists s. split; [reflexivity|]. split; [exact I|lia].
Qed.

Lemma fill_ok data p0 U s : bytes data -> bri data p0 U s ->
  exists s', fill data s = JOk s' /\ bri data p0 U s' /\ 17 <= br_left s'.
Proof.
  intros Y I. unfold fill. destruct (Z.leb_spec (br_left s) 16) as [H|H].
  - pose proof I as (L & E & V & SRC & EB & EL & LV & RV & EV).
    destruct (fill_loop_ok data p0 U Y 8 s I ltac:(lia) ltac:(lia)) as [s' [R [I' L']]].
    exists s'. split; [exact R|]. split; [exact I'|lia].
  - exists s. split; [reflexivity|]. split; [exact I|lia].
Qed.

Lemma field_ok data p0 U s n : bri data p0 U s -> 0 <= n <= br_left s -> br_left s - n < 64 ->
  exists V1 V2, br_field s n = JOk (mval V1) /\ length V1 = Z.to_nat n
    /\ forall s', br_pos s' = br_pos s -> br_val s' = br_val s -> br_next s' = br_next s -> br_left s' = br_left s - n ->
       bri data p0 (U ++ V1) s' /\ br_left s' = Z.of_nat (length V2)
       /\ exists L E, source data p0 L E (br_pos s) (br_next s) /\ byte_bits (L ++ E) = (U ++ V1) ++ V2.
Proof.
  intros (L & E & V & SRC & EB & EL & LV & RV & EV) Hn Hs.
  exists (firstn (Z.to_nat n) V), (skipn (Z.to_nat n) V).
  assert (LF : length (firstn (Z.to_nat n) V) = Z.to_nat n) by (rewrite firstn_length; lia).
  assert (LS : length (skipn (Z.to_nat n) V) = (length V - Z.to_nat n)%nat) by apply skipn_length.
  set (V1 := firstn (Z.to_nat n) V) in *. set (V2 := skipn (Z.to_nat n) V) in *.
  assert (VV : V = V1 ++ V2) by (unfold V1, V2; symmetry; apply firstn_skipn).
  pose proof (mval_range V1) as R1. pose proof (mval_range V2) as R2.
  assert (MV : mval V = mval V1 * 2 ^ Z.of_nat (length V2) + mval V2) by (rewrite VV at 1; apply mval_app).
  assert (EL2 : br_left s - n = Z.of_nat (length V2)) by lia.
  split; [|split; [exact LF|]].
  - unfold br_field. destruct (Z.ltb_spec (br_left s - n) 0); [lia|]. destruct (Z.leb_spec 64 (br_left s - n)); [lia|]. cbn [orb].
    f_equal. rewrite Z.shiftr_div_pow2 by lia. rewrite Z.shiftl_mul_pow2, Z.mul_1_l by lia. rewrite land_ones_mod by lia.
    rewrite EL2. set (k := Z.of_nat (length V2)) in *. pose proof (pow2_pos k ltac:(lia)). pose proof (pow2_pos n ltac:(lia)).
    transitivity (((br_val s) mod 2 ^ br_left s / 2 ^ k) mod 2 ^ n).
    + replace (br_left s) with (k + n) by lia. rewrite Z.pow_add_r by lia. rewrite Z.rem_mul_r by lia.
      replace (br_val s mod 2 ^ k + 2 ^ k * ((br_val s / 2 ^ k) mod 2 ^ n)) with ((br_val s / 2 ^ k) mod 2 ^ n * 2 ^ k + br_val s mod 2 ^ k) by ring.
      rewrite Z.div_add_l by lia. rewrite (Z.div_small (_ mod 2 ^ k)) by (apply Z.mod_pos_bound; lia). rewrite Z.add_0_r, Z.mod_mod by lia. reflexivity.
    + rewrite EV, MV. rewrite Z.div_add_l by lia. rewrite (Z.div_small (mval V2)) by lia.
      rewrite Z.add_0_r. apply Z.mod_small. rewrite LF in R1. rewrite Z2Nat.id in R1 by lia. exact R1.
  - intros s' Ep Ev En El. split; [|split].
    + exists L, E, V2. rewrite Ep, En, Ev, El. split; [exact SRC|]. split; [rewrite EB, VV, app_assoc; reflexivity|].
      split; [lia|]. split; [lia|]. split; [exact RV|]. rewrite EL2.
      set (k := Z.of_nat (length V2)) in *. pose proof (pow2_pos k ltac:(lia)). pose proof (pow2_pos n ltac:(lia)).
      transitivity ((br_val s mod 2 ^ br_left s) mod 2 ^ k).
      * replace (br_left s) with (k + n) by lia. rewrite Z.pow_add_r by lia. rewrite Z.rem_mul_r by lia.
        rewrite (Z.mul_comm (2 ^ k) (_ mod _)), Z.mod_add by lia. rewrite Z.mod_mod by lia. reflexivity.
      * rewrite EV, MV, (Z.add_comm _ (mval V2)), Z.mod_add by lia. apply Z.mod_small; lia.
    + lia.
    + exists L, E. split; [exact SRC|]. rewrite EB, VV, app_assoc. reflexivity.
Qed.

Lemma read_ok data p0 U s n : bytes data -> bri data p0 U s -> 0 < n <= 16 ->
  exists v s', br_read data n s = JOk (v, s') /\ 0 <= v < 2 ^ n /\ bri data p0 (U ++ mbits (Z.to_nat n) v) s'.
Proof.
  intros Y I Hn. unfold br_read. destruct (fill_ok data p0 U s Y I) as [s1 [F [I1 L1]]]. rewrite F. cbn [jbind].
  assert (L64 : br_left s1 <= 64) by (destruct I1 as (L & E & V & _ & _ & EL & LV & _); lia).
  destruct (field_ok data p0 U s1 n I1 ltac:(lia) ltac:(lia)) as (V1 & V2 & E & LV & K). rewrite E. cbn [jbind].
  eexists; eexists. split; [reflexivity|].
  pose proof (mval_range V1) as R. rewrite LV, Z2Nat.id in R by lia. split; [exact R|].
  rewrite <- LV, mbits_mval. apply (K (mkBR _ _ _ _)); reflexivity.
Qed.

Lemma reset_ok data p0 : bytes data -> 1 <= p0 <= Z.of_nat (length data) ->
  exists s, br_reset data p0 = JOk s /\ bri data p0 [] s.
Proof.
  intros Y Hp. unfold br_reset.
  destruct (fill_ok data p0 [] (mkBR p0 0 0 (Z.of_nat (length data) - 2)) Y) as [s [F [I _]]]; [|eauto].
  exists [], [], []. cbn [br_pos br_next br_left br_val app length].
  split; [|split; [reflexivity|split; [reflexivity|split; [lia|split; [lia|reflexivity]]]]].
  split; [lia|]. split; [apply sl_nil; lia|]. split; [intros L' b E; destruct L'; discriminate|].
  left. cbn [stuff flat_map length]. split; [reflexivity|]. lia.
Qed.

(** * Giving back unused bytes *)

(** No marker can be found from [p] on. *)
Definition no_marker (data : list Z) (p : Z) : Prop :=
  forall i m, p <= i -> aget data i = JOk 255 -> aget data (i + 1) = JOk m -> m = 0.

Definition true_pos (p0 : Z) (L : list Z) (m : nat) : Z :=
  p0 + Z.of_nat (length (stuff (firstn m L))) + Z.of_nat (m - length L).

Lemma firstn_S_nth {A} (l : list A) m d : (m < length l)%nat -> firstn (S m) l = firstn m l ++ [nth m l d].
Proof.
  revert m; induction l as [|a l IH]; intros [|m] H; cbn [length] in H; try lia; [reflexivity|].
  cbn [firstn nth app]. f_equal. apply IH. lia.
Qed.

Lemma true_pos_S p0 L m : true_pos p0 L (S m) =
  true_pos p0 L m + (if (m <? length L)%nat then Z.of_nat (length (stuff [nth m L 0])) else 1).
Proof.
  unfold true_pos. destruct (Nat.ltb_spec m (length L)) as [H|H].
  - rewrite (firstn_S_nth L m 0) by exact H. rewrite stuff_app, app_length. lia.
  - rewrite (firstn_all2 (n := S m)), (firstn_all2 (n := m)) by lia. lia.
Qed.

Lemma source_no_marker data p0 L E pos next : source data p0 L E pos next ->
  p0 + Z.of_nat (length (stuff L)) = Z.of_nat (length data) - 1 -> no_marker data p0.
Proof.
  intros (P1 & SL & _ & _) EL i m Hi E1 E2.
  pose proof (aget_bound _ _ _ E2) as B.
  assert (Li : (Z.to_nat (i - p0) < length (stuff L))%nat) by lia.
  destruct (nth_error (stuff L) (Z.to_nat (i - p0))) as [c|] eqn:Ec; [|apply nth_error_None in Ec; lia].
  pose proof (sl_aget _ _ _ _ _ SL Ec) as G. replace (p0 + Z.of_nat (Z.to_nat (i - p0))) with i in G by lia.
  rewrite E1 in G. injection G as <-. apply stuff_ff in Ec.
  pose proof (sl_aget _ _ _ _ _ SL Ec) as G. replace (p0 + Z.of_nat (S (Z.to_nat (i - p0)))) with (i + 1) in G by lia.
  rewrite E2 in G. injection G as <-. reflexivity.
Qed.

Lemma give_back_ok data p0 L E pos next : bytes data -> source data p0 L E pos next ->
  forall q m pos1, (q + m <= length L + length E)%nat -> (m = 0%nat -> aget data (p0 - 1) <> JOk 255) ->
  true_pos p0 L (q + m) <= pos1 ->
  (pos1 = true_pos p0 L (q + m) \/ p0 + Z.of_nat (length (stuff L)) = Z.of_nat (length data) - 1) ->
  pos1 <= pos ->
  exists pos2, give_back data next q pos1 = JOk pos2 /\ true_pos p0 L m <= pos2 /\ pos2 <= pos
    /\ (pos2 = true_pos p0 L m \/ p0 + Z.of_nat (length (stuff L)) = Z.of_nat (length data) - 1).
Proof.
  intros Y SRC. pose proof SRC as (P1 & SL & RD & C).
  set (len := Z.of_nat (length data)) in *. set (pL := p0 + Z.of_nat (length (stuff L))) in *.
  induction q as [|q IH]; intros m pos1 Hm H0 Hlo Heq Hhi.
  - exists pos1. cbn [give_back]. split; [reflexivity|]. split; [exact Hlo|]. split; [exact Hhi|]. exact Heq.
  - cbn [give_back]. replace (S q + m)%nat with (S (q + m)) in * by lia.
    set (k := (q + m)%nat) in *. rewrite true_pos_S in Hlo, Heq.
    assert (TP0 : p0 <= true_pos p0 L k) by (unfold true_pos; lia).
    assert (Nx : next <= len - 2) by (destruct C as [(_ & _ & ->)|[[j (_ & -> & _ & ? & _)]|[j (_ & -> & _)]]]; lia).
    (* the conditional step *)
    assert (ST : exists pos2, (if pos1 - 1 <? next then
           let* a := aget data (pos1 - 1) in
           if a =? 0 then let* b := aget data (pos1 - 1 - 1) in JOk (if b =? 255 then pos1 - 1 - 1 else pos1 - 1)
           else JOk (pos1 - 1)
         else JOk (pos1 - 1)) = JOk pos2 /\ true_pos p0 L k <= pos2 /\ pos2 <= pos1 - 1
         /\ (pos2 = true_pos p0 L k \/ pL = len - 1)).
    { destruct (Nat.ltb_spec k (length L)) as [Hk|Hk].
      - (* a genuine byte *)
        set (b := nth k L 0) in *.
        assert (EQL : exists L2, L = firstn k L ++ [b] ++ L2).
        { exists (skipn (S k) L).
          unfold b. rewrite app_assoc, <- firstn_S_nth by exact Hk. symmetry. apply firstn_skipn. }
        destruct EQL as [L2 EQL].
        assert (SP : stuff L = stuff (firstn k L) ++ stuff [b] ++ stuff L2) by (rewrite EQL at 1; rewrite !stuff_app; reflexivity).
        assert (TK : true_pos p0 L k = p0 + Z.of_nat (length (stuff (firstn k L)))) by (unfold true_pos; lia).
        assert (SLb : sl data (true_pos p0 L k) (stuff [b])).
        { rewrite TK. rewrite SP in SL. apply sl_suffix in SL. apply sl_prefix in SL. exact SL. }
        assert (RDk : true_pos p0 L k < len - 2).
        { (* byte k was fetched below len - 2, as was the last byte *)
          destruct L as [|l0 L0 _] using rev_ind; [cbn [length] in Hk; lia|].
          specialize (RD L0 l0 eq_refl). rewrite TK.
          rewrite app_length in Hk. cbn [length] in Hk.
          rewrite firstn_app. replace (k - length L0)%nat with 0%nat by lia. cbn [firstn]. rewrite app_nil_r.
          assert ((length (stuff (firstn k L0)) <= length (stuff L0))%nat).
          { rewrite <- (firstn_skipn k L0) at 2. rewrite stuff_app, app_length. lia. }
          lia. }
        (* the byte before it is not 0xFF *)
        assert (PRE : pos1 = true_pos p0 L k + 1 -> aget data (true_pos p0 L k - 1) <> JOk 255).
        { intros _ Ea. destruct k as [|k'] eqn:Ek.
          - assert (m = 0%nat) by lia. apply H0; [assumption|]. rewrite TK in Ea. cbn [firstn stuff flat_map length] in Ea.
            replace (p0 + Z.of_nat 0 - 1) with (p0 - 1) in Ea by lia. exact Ea.
          - destruct (stuff_last (firstn (S k') L)) as [l' [x [El Nx2]]].
            { rewrite (firstn_S_nth L k' 0) by lia. rewrite stuff_app. unfold stuff at 2. cbn [flat_map].
              destruct (nth k' L 0 =? 255); intros X; apply app_eq_nil in X as [_ X]; discriminate. }
            rewrite SP, El in SL. rewrite <- !app_assoc in SL. apply sl_suffix in SL.
            assert (nth_error ([x] ++ stuff [b] ++ stuff L2) 0 = Some x) as En by reflexivity.
            pose proof (sl_aget _ _ _ _ _ SL En) as G.
            rewrite TK, El, app_length in Ea. cbn [length] in Ea.
            replace (p0 + Z.of_nat (length l' + 1) - 1) with (p0 + Z.of_nat (length l') + Z.of_nat 0) in Ea by lia.
            rewrite Ea in G. injection G as <-. congruence. }
        destruct (Z.eqb_spec b 255) as [Eb|Nb].
        + assert (Lb : length (stuff [b]) = 2%nat) by (rewrite Eb; reflexivity).
          rewrite Lb in *. change (Z.of_nat 2) with 2 in *.
          destruct (Z.ltb_spec (pos1 - 1) next) as [Hx|Hx].
          * destruct (aget_in data (pos1 - 1)) as [a Ea]; [lia|]. rewrite Ea. cbn [jbind].
            destruct (Z.eqb_spec a 0) as [->|Na].
            -- destruct (aget_in data (pos1 - 1 - 1)) as [c Ec]; [lia|]. rewrite Ec. cbn [jbind].
               eexists. split; [reflexivity|].
               destruct Heq as [Heq|Od].
               ++ assert (c = 255).
                  { rewrite Eb in SLb. change (stuff [255]) with [255; 0] in SLb.
                    pose proof (sl_aget _ _ _ 0 255 SLb eq_refl) as G.
                    replace (true_pos p0 L k + Z.of_nat 0) with (pos1 - 1 - 1) in G by lia. congruence. }
                  subst c. cbn [Z.eqb Pos.eqb]. change (255 =? 255) with true. cbv iota. split; [lia|]. split; [lia|]. left; lia.
               ++ destruct (c =? 255); (split; [lia|]; split; [lia|]; right; exact Od).
            -- eexists. split; [reflexivity|].
               destruct Heq as [Heq|Od].
               ++ exfalso. apply Na. rewrite Eb in SLb. change (stuff [255]) with [255; 0] in SLb.
                  pose proof (sl_aget _ _ _ 1 0 SLb eq_refl) as G.
                  replace (true_pos p0 L k + Z.of_nat 1) with (pos1 - 1) in G by lia. congruence.
               ++ split; [lia|]. split; [lia|]. right; exact Od.
          * eexists. split; [reflexivity|]. split; [lia|]. split; [lia|].
            destruct Heq as [Heq|Od]; [|right; exact Od].
            (* the escape byte is not before the next marker: only at the very end of the data *)
            right.
            assert (LT : true_pos p0 L k + 2 <= pL).
            { unfold pL. rewrite SP, !app_length, Lb, TK. lia. }
            assert (PLlen : pL <= len) by (apply sl_bound in SL; unfold pL, len; lia).
            destruct C as [(_ & _ & En)|[[j (_ & En & _)]|[j (_ & En & _)]]]; try lia.
            all: destruct L2 as [|y L2 _] using rev_ind;
              [assert (pL = true_pos p0 L k + 2) by (unfold pL; rewrite SP, !app_length, Lb, TK; cbn [stuff flat_map length]; lia); lia|].
            all: exfalso; rewrite !app_assoc in EQL; specialize (RD _ _ EQL); rewrite !stuff_app, !app_length, Lb in RD; lia.
        + rewrite (stuff_small b) in * by exact Nb. cbn [length] in *. change (Z.of_nat 1) with 1 in *.
          destruct (Z.ltb_spec (pos1 - 1) next) as [Hx|Hx].
          * destruct (aget_in data (pos1 - 1)) as [a Ea]; [lia|]. rewrite Ea. cbn [jbind].
            destruct (Z.eqb_spec a 0) as [->|Na].
            -- destruct (aget_in data (pos1 - 1 - 1)) as [c Ec]; [lia|]. rewrite Ec. cbn [jbind].
               eexists. split; [reflexivity|].
               destruct (Z.eqb_spec c 255) as [->|Nc].
               ++ destruct (Z.eq_dec pos1 (true_pos p0 L k + 1)) as [E1|N1].
                  ** exfalso. apply (PRE E1). rewrite <- Ec. f_equal. lia.
                  ** split; [lia|]. split; [lia|]. destruct Heq as [Heq|Od]; [lia|right; exact Od].
               ++ split; [lia|]. split; [lia|]. destruct Heq as [Heq|Od]; [left; lia|right; exact Od].
            -- eexists. split; [reflexivity|]. split; [lia|]. split; [lia|]. destruct Heq as [Heq|Od]; [left; lia|right; exact Od].
          * eexists. split; [reflexivity|]. split; [lia|]. split; [lia|]. destruct Heq as [Heq|Od]; [left; lia|right; exact Od].
      - (* an invented byte *)
        assert (TK : true_pos p0 L k = pL + Z.of_nat (k - length L)) by (unfold true_pos; rewrite firstn_all2 by lia; reflexivity).
        destruct (Z.ltb_spec (pos1 - 1) next) as [Hx|Hx].
        + exfalso. destruct C as [(-> & _ & _)|[[j (_ & En & _)]|[j (_ & En & HH & _)]]]; [cbn [length] in Hm; lia|lia|lia].
        + eexists. split; [reflexivity|]. split; [lia|]. split; [lia|]. destruct Heq as [Heq|Od]; [left; lia|right; exact Od]. }
    destruct ST as [pos2 [ES [Lo2 [Hi2 Eq2]]]].
    cbv zeta. rewrite ES. cbn [jbind].
    apply IH; auto; try lia.
Qed.

(** * FinishStream *)

Theorem finish_ok data p0 U s : bytes data -> bri data p0 U s ->
  (U <> [] \/ aget data (p0 - 1) <> JOk 255) ->
  (br_finish data s = JErr
   /\ exists L E pb m pos2, source data p0 L E (br_pos s) (br_next s) /\ (m <= length (L ++ E))%nat
      /\ byte_bits (firstn m (L ++ E)) = U ++ pb /\ (length pb < 8)%nat /\ br_next s < pos2
      /\ (pos2 = true_pos p0 L m \/ p0 + Z.of_nat (length (stuff L)) = Z.of_nat (length data) - 1))
  \/ exists z pads pos bs pb, br_finish data s = JOk (z, pads, pos)
     /\ bytes bs /\ byte_bits bs = U ++ pb /\ length pb = pad_need (length U)
     /\ pads = map b2z pb /\ z = negb (forallb (fun b => b) pb)
     /\ p0 <= pos <= Z.of_nat (length data)
     /\ ((sl data p0 (stuff bs) /\ pos = p0 + Z.of_nat (length (stuff bs))) \/ no_marker data pos).
Proof.
  intros Y I HU. pose proof I as (L & E & V & SRC & EB & EL & LV & RV & EV).
  assert (YB : bytes (L ++ E)).
  { pose proof SRC as (_ & SL & _ & C). apply bytes_app. split.
    - pose proof (sl_bytes _ _ _ Y SL) as YS. clear - YS. induction L as [|b L IH]; [constructor|].
      change (b :: L) with ([b] ++ L) in YS. rewrite stuff_app in YS. apply bytes_app in YS as [Y1 Y2].
      apply bytes_cons. split; [|apply IH, Y2]. unfold stuff in Y1. cbn [flat_map] in Y1. rewrite app_nil_r in Y1.
      destruct (b =? 255) eqn:Eb; [apply Z.eqb_eq in Eb; subst; unfold is_byte; lia|]. apply bytes_cons in Y1. apply Y1.
    - assert (Y0 : forall n, bytes (repeat 0 n)) by (induction n; [constructor|apply bytes_cons; split; [unfold is_byte; lia|assumption]]).
      destruct C as [(-> & _)|[[j (-> & _)]|[j (-> & _)]]]; [constructor| |apply Y0].
      apply bytes_cons; split; [unfold is_byte; lia|apply Y0]. }
  (* padding bits *)
  set (n := Z.land (br_left s) 7).
  assert (En : n = br_left s mod 8) by (unfold n; change 7 with (2 ^ 3 - 1); apply land_ones_mod; lia).
  assert (Hn : 0 <= n < 8) by (rewrite En; apply Z.mod_pos_bound; lia).
  assert (Hnl : n <= br_left s) by (rewrite En; apply Z.mod_le; lia).
  set (pb := firstn (Z.to_nat n) V). set (W := skipn (Z.to_nat n) V).
  assert (VV : V = pb ++ W) by (symmetry; apply firstn_skipn).
  assert (Lpb : length pb = Z.to_nat n) by (unfold pb; rewrite firstn_length; lia).
  assert (LW : Z.of_nat (length W) = br_left s - n) by (unfold W; rewrite skipn_length; lia).
  set (q := Z.to_nat (Z.shiftr (br_left s) 3)).
  assert (Eq : Z.of_nat q = br_left s / 8).
  { unfold q. rewrite Z.shiftr_div_pow2 by lia. change (2 ^ 3) with 8. rewrite Z2Nat.id; [reflexivity|]. apply Z.div_pos; lia. }
  assert (Lq : (length W = 8 * q)%nat).
  { pose proof (Z.div_mod (br_left s) 8 ltac:(lia)). lia. }
  assert (PS : pad_seen s = JOk (negb (forallb (fun b => b) pb), map b2z pb)).
  { unfold pad_seen. fold n. destruct (Z.ltb_spec 0 n) as [H|H].
    - destruct (Z.eq_dec (br_left s - n) 64) as [E64|N64]; [lia|].
      destruct (field_ok data p0 U s n I ltac:(lia) ltac:(lia)) as (V1 & V2 & EF & LF & KF).
      assert (E1 : V1 = pb).
      { clear KF. unfold br_field in EF. destruct (Z.ltb_spec (br_left s - n) 0); [lia|]. destruct (Z.leb_spec 64 (br_left s - n)); [lia|].
        cbn [orb] in EF. injection EF as EF. apply mval_inj; [congruence|]. rewrite <- EF.
        rewrite Z.shiftr_div_pow2, Z.shiftl_mul_pow2, Z.mul_1_l, land_ones_mod by lia.
        rewrite <- LW. set (k := Z.of_nat (length W)) in *. pose proof (pow2_pos k ltac:(lia)). pose proof (pow2_pos n ltac:(lia)).
        transitivity (((br_val s) mod 2 ^ br_left s / 2 ^ k) mod 2 ^ n).
        + replace (br_left s) with (k + n) by lia. rewrite Z.pow_add_r by lia. rewrite Z.rem_mul_r by lia.
          replace (br_val s mod 2 ^ k + 2 ^ k * ((br_val s / 2 ^ k) mod 2 ^ n)) with ((br_val s / 2 ^ k) mod 2 ^ n * 2 ^ k + br_val s mod 2 ^ k) by ring.
          rewrite Z.div_add_l by lia. rewrite (Z.div_small (_ mod 2 ^ k)) by (apply Z.mod_pos_bound; lia). rewrite Z.add_0_r, Z.mod_mod by lia. reflexivity.
        + rewrite EV, VV, mval_app. fold k. pose proof (mval_range W) as RW. fold k in RW. rewrite Z.div_add_l by lia. rewrite (Z.div_small (mval W)) by lia.
          rewrite Z.add_0_r. apply Z.mod_small. pose proof (mval_range pb) as RP. rewrite Lpb, Z2Nat.id in RP by lia. exact RP. }
      rewrite E1 in EF. rewrite EF. cbn [jbind].
      assert (Ec : mval pb = Z.shiftl 1 n - 1 <-> pb = repeat true (Z.to_nat n)).
      { rewrite Z.shiftl_mul_pow2, Z.mul_1_l by lia.
        replace (2 ^ n - 1) with (mval (repeat true (Z.to_nat n))) by (rewrite mval_ones, Z2Nat.id by lia; reflexivity).
        split; [apply mval_inj; rewrite repeat_length; exact Lpb|congruence]. }
      f_equal. f_equal.
      + f_equal. destruct (Z.eqb_spec (mval pb) (Z.shiftl 1 n - 1)) as [Ee|Ne].
        * apply Ec in Ee. rewrite Ee. symmetry. apply forallb_forall. intros x Hx. apply repeat_spec in Hx. exact Hx.
        * symmetry. apply not_true_is_false. intros F. apply Ne, Ec.
          rewrite forallb_forall in F. rewrite <- Lpb. clear - F. induction pb as [|b pb IH]; [reflexivity|].
          cbn [length repeat]. rewrite <- IH by (intros; apply F; right; assumption). rewrite (F b (or_introl eq_refl)). reflexivity.
      + rewrite <- Lpb. clear. induction pb as [|b pb IH]; [reflexivity|].
        cbn [length map]. change (S (length pb)) with (length pb + 1)%nat at 1 || idtac.
        rewrite seq_S. rewrite rev_app_distr. cbn [rev app map Nat.add]. f_equal.
        * change (b :: pb) with ([b] ++ pb). rewrite mval_app, mval_one. pose proof (mval_range pb).
          rewrite Z.shiftr_div_pow2 by lia. pose proof (pow2_pos_nat (length pb)). rewrite Z.div_add_l by lia.
          rewrite (Z.div_small (mval pb)) by lia. destruct b; reflexivity.
        * rewrite <- IH. apply map_ext_in. intros i Hi. apply in_rev in Hi. rewrite rev_involutive in Hi || idtac. apply in_seq in Hi.
          change (b :: pb) with ([b] ++ pb). rewrite mval_app, mval_one.
          rewrite !Z.shiftr_div_pow2 by lia. change 1 with (2 ^ 1 - 1). rewrite !land_ones_mod by lia. change (2 ^ 1) with 2.
          assert (PW : 2 ^ Z.of_nat (length pb) = 2 ^ Z.of_nat (length pb - i - 1) * 2 * 2 ^ Z.of_nat i).
          { rewrite <- (Z.pow_1_r 2) at 3. rewrite <- !Z.pow_add_r by lia. f_equal. lia. }
          rewrite PW.
          pose proof (pow2_pos_nat i).
          rewrite !Z.mul_assoc, Z.div_add_l by lia. rewrite Z.add_comm, Z.mod_add by lia. reflexivity.
    - assert (n = 0) by lia. destruct pb as [|? ?]; [reflexivity|cbn [length] in Lpb; lia]. }
  unfold br_finish. rewrite PS. cbn [jbind]. fold q.
  (* give back *)
  set (m := (length (L ++ E) - q)%nat).
  assert (BB : (8 * length (L ++ E) = length U + length pb + 8 * q)%nat).
  { rewrite <- byte_bits_length, EB, VV, !app_length. lia. }
  assert (Hm : (length L + length E = q + m)%nat) by (unfold m; rewrite app_length in *; lia).
  assert (TP : br_pos s = true_pos p0 L (q + m)).
  { unfold true_pos. rewrite firstn_all2 by lia. destruct SRC as (_ & _ & _ & C). rewrite <- Hm.
    destruct C as [(-> & -> & _)|[[j (-> & _ & -> & _ & _)]|[j (-> & _ & _ & ->)]]]; cbn [length]; rewrite ?repeat_length; cbn [length repeat]; rewrite ?repeat_length; lia. }
  destruct (give_back_ok data p0 L E (br_pos s) (br_next s) Y SRC q m (br_pos s)) as [pos2 [G [Lo [Hi Fin]]]].
  { lia. }
  { intros M0. destruct HU as [HU|HU]; [|exact HU]. exfalso. apply HU.
    assert (length U = 0%nat) by (unfold m in M0; lia). destruct U; [reflexivity|discriminate]. }
  { lia. } { left; exact TP. } { lia. }
  assert (Bm : byte_bits (firstn m (L ++ E)) = U ++ pb).
  { assert (X : byte_bits (firstn m (L ++ E)) ++ byte_bits (skipn m (L ++ E)) = (U ++ pb) ++ W).
    { rewrite <- byte_bits_app, firstn_skipn, EB, VV, app_assoc. reflexivity. }
    apply app_len_inj in X; [apply X|]. rewrite byte_bits_length, firstn_length, (app_length U). unfold m. lia. }
  rewrite G. cbn [jbind]. destruct (Z.ltb_spec (br_next s) pos2) as [Hx|Hx].
  { left. split; [reflexivity|]. exists L, E, pb, m, pos2. split; [exact SRC|]. split; [unfold m; lia|]. split; [exact Bm|].
    split; [lia|]. split; [lia|]. exact Fin. }
  right.
  exists (negb (forallb (fun b => b) pb)), (map b2z pb), pos2, (firstn m (L ++ E)), pb.
  split; [reflexivity|].
  split; [|split; [exact Bm|split; [|split; [reflexivity|split; [reflexivity|split]]]]].
  - pose proof YB as YB2. rewrite <- (firstn_skipn m) in YB2. apply bytes_app in YB2. apply YB2.
  - (* padding length *)
    apply (f_equal (@length bool)) in Bm. rewrite byte_bits_length, app_length in Bm.
    unfold pad_need. rewrite Lpb in *.
    assert (En2 : (length U mod 8 = (8 - Z.to_nat n) mod 8)%nat).
    { replace (length U) with (8 * length (firstn m (L ++ E)) - Z.to_nat n)%nat by lia.
      destruct (length (firstn m (L ++ E))) as [|x]; [replace (Z.to_nat n) with 0%nat by lia; reflexivity|].
      replace (8 * S x - Z.to_nat n)%nat with (8 - Z.to_nat n + x * 8)%nat by lia. rewrite Nat.mod_add by lia. reflexivity. }
    rewrite En2. destruct (Z.eq_dec n 0) as [Z0|N0]; [rewrite Z0; reflexivity|].
    rewrite (Nat.mod_small (8 - Z.to_nat n)) by lia. replace (8 - (8 - Z.to_nat n))%nat with (Z.to_nat n) by lia.
    rewrite Nat.mod_small by lia. reflexivity.
  - assert (br_next s <= Z.of_nat (length data)).
    { destruct SRC as (_ & SL & _ & C). apply sl_bound in SL.
      destruct C as [(_ & _ & ->)|[[j (_ & -> & _)]|[j (_ & -> & _)]]]; lia. }
    assert (p0 <= true_pos p0 L m) by (unfold true_pos; lia). lia.
  - destruct Fin as [Fin|Od].
    + left.
      assert (Lm : (m <= length L)%nat).
      { destruct (Nat.le_gt_cases m (length L)) as [|Gt]; [assumption|exfalso].
        assert (br_next s < pos2); [|lia]. rewrite Fin. unfold true_pos. rewrite firstn_all2 by lia.
        destruct SRC as (_ & _ & _ & C). destruct C as [(-> & _ & _)|[[j (_ & -> & _)]|[j (_ & -> & ? & _)]]]; cbn [length] in *; lia. }
      rewrite firstn_app. replace (m - length L)%nat with 0%nat by lia. cbn [firstn]. rewrite app_nil_r.
      split.
      * destruct SRC as (_ & SL & _). rewrite <- (firstn_skipn m L) in SL. rewrite stuff_app in SL. apply sl_prefix in SL. exact SL.
      * rewrite Fin. unfold true_pos. lia.
    + right. pose proof (source_no_marker _ _ _ _ _ _ SRC Od) as NM.
      intros i mm Hi2. apply NM. assert (p0 <= true_pos p0 L m) by (unfold true_pos; lia). lia.
Qed.

(** * Reading well-formed scan data *)

Lemma stuff_prefix : forall bs L m r1 r2, m <> 0 -> stuff L ++ r1 = stuff bs ++ 255 :: m :: r2 ->
  exists L2, bs = L ++ L2.
Proof.
  induction bs as [|c bs IH]; intros L m r1 r2 Hm E.
  - destruct L as [|b L]; [exists []; reflexivity|]. exfalso. unfold stuff in E. cbn [flat_map app] in E.
    destruct (Z.eqb_spec b 255) as [->|N]; cbn [app] in E; injection E; intros; congruence.
  - destruct L as [|b L]; [exists (c :: bs); reflexivity|].
    unfold stuff in E. cbn [flat_map] in E. fold (stuff L) in E. fold (stuff bs) in E.
    destruct (Z.eqb_spec b 255) as [->|Nb]; destruct (Z.eqb_spec c 255) as [->|Nc]; cbn [app] in E.
    + injection E as E. destruct (IH L m r1 r2 Hm E) as [L2 ->]. exists L2. reflexivity.
    + injection E; intros; congruence.
    + injection E; intros; congruence.
    + injection E as E1 E. destruct (IH L m r1 r2 Hm E) as [L2 ->]. exists L2. rewrite E1. reflexivity.
Qed.

(** A segment [bs] at [p0], ended by a marker. *)
Definition segment (data : list Z) (p0 : Z) (bs : list Z) (m : Z) : Prop :=
  m <> 0 /\ sl data p0 (stuff bs ++ [255; m]).

Lemma source_segment data p0 L E pos next bs m : segment data p0 bs m -> source data p0 L E pos next ->
  (exists L2, bs = L ++ L2) /\ (E <> [] -> L = bs)
  /\ p0 + Z.of_nat (length (stuff L)) <= next <= Z.of_nat (length data) - 2.
Proof.
  intros [Hm SM] (P1 & SL & RD & C).
  assert (PX : exists L2, bs = L ++ L2).
  { destruct SM as [pre [rest [E1 H1]]]. destruct SL as [pre2 [rest2 [E2 H2]]].
    assert (X : pre = pre2 /\ (stuff bs ++ [255; m]) ++ rest = stuff L ++ rest2) by (rewrite E1 in E2; apply app_len_inj in E2; [exact E2|lia]).
    destruct X as [_ X]. rewrite <- app_assoc in X. cbn [app] in X. eapply (stuff_prefix bs L m rest2 rest); [exact Hm|symmetry; exact X]. }
  split; [exact PX|]. destruct PX as [L2 EL].
  pose proof (sl_bound _ _ _ SM) as BM. rewrite app_length in BM. cbn [length] in BM.
  assert (LE : length (stuff bs) = (length (stuff L) + length (stuff L2))%nat) by (rewrite EL, stuff_app, app_length; reflexivity).
  destruct C as [(-> & Ep & En)|[[j (-> & En & Ep & Hl & M1 & M2)]|[j (-> & En & Hl & Ep)]]].
  - split; [congruence|lia].
  - split; [|lia]. intros _. destruct L2 as [|c L2]; [rewrite app_nil_r in EL; auto|exfalso].
    rewrite EL, stuff_app, <- app_assoc in SM. apply sl_suffix in SM. unfold stuff at 2 in SM. cbn [flat_map] in SM.
    destruct (Z.eqb_spec c 255) as [->|Nc].
    + apply M2. pose proof (sl_aget _ _ _ 1 0 SM eq_refl) as G. exact G.
    + pose proof (sl_aget _ _ _ 0 c SM eq_refl) as G. rewrite Z.add_0_r in G. congruence.
  - split; [|lia]. intros _. destruct L2 as [|c L2]; [rewrite app_nil_r in EL; auto|exfalso].
    assert (length (stuff (c :: L2)) >= 1)%nat by (unfold stuff; cbn [flat_map]; destruct (c =? 255); cbn [app length]; lia). lia.
Qed.

Lemma bri_segment data p0 U s bs m : segment data p0 bs m -> bri data p0 U s -> (length U <= 8 * length bs)%nat ->
  U = firstn (length U) (byte_bits bs).
Proof.
  intros SG (L & E & V & SRC & EB & _) LU.
  destruct (source_segment _ _ _ _ _ _ _ _ SG SRC) as [[L2 EL] [ED _]].
  destruct E as [|e E].
  - rewrite app_nil_r in EB. rewrite EL, byte_bits_app, EB, <- app_assoc. symmetry. apply firstn_app_exact.
  - rewrite (ED ltac:(discriminate)) in EB. rewrite byte_bits_app in EB.
    apply (f_equal (firstn (length U))) in EB. rewrite (firstn_app_exact U V) in EB.
    rewrite firstn_app in EB. replace (length U - length (byte_bits bs))%nat with 0%nat in EB by (rewrite byte_bits_length; lia).
    cbn [firstn] in EB. rewrite app_nil_r in EB. auto.
Qed.

Theorem finish_segment data p0 U s bs m : bytes data -> segment data p0 bs m -> bri data p0 U s ->
  (U <> [] \/ aget data (p0 - 1) <> JOk 255) -> (length U <= 8 * length bs)%nat ->
  exists k pb, (8 * k = length U + length pb)%nat /\ (length pb < 8)%nat /\ byte_bits (firstn k bs) = U ++ pb
    /\ br_finish data s = JOk (negb (forallb (fun b => b) pb), map b2z pb, p0 + Z.of_nat (length (stuff (firstn k bs)))).
Proof.
  intros Y SG I HU LU. destruct (finish_ok data p0 U s Y I HU) as [[_ (L & E & pb & k & pos2 & SRC & Hk & EB & Lpb & Hx & Fin)]|H].
  - exfalso. destruct (source_segment _ _ _ _ _ _ _ _ SG SRC) as [[L2 EL] [ED Bn]].
    assert (Kb : (8 * k = length U + length pb)%nat) by (apply (f_equal (@length bool)) in EB; rewrite byte_bits_length, firstn_length, (app_length U) in EB; lia).
    destruct Fin as [Fin|Od]; [|lia].
    assert (Lk : (k <= length L)%nat).
    { destruct E as [|e E]; [rewrite app_nil_r in Hk; exact Hk|]. rewrite (ED ltac:(discriminate)). lia. }
    assert (LE : (length (stuff (firstn k L)) <= length (stuff L))%nat) by (rewrite <- (firstn_skipn k L) at 2; rewrite stuff_app, app_length; lia).
    unfold true_pos in Fin. lia.
  - destruct H as (z & pads & pos & b1 & pb & EF & Yb & EB & Lpb & -> & -> & Hp & Alt).
    exists (length b1), pb.
    assert (Kb : (8 * length b1 = length U + length pb)%nat) by (apply (f_equal (@length bool)) in EB; rewrite byte_bits_length, (app_length U) in EB; lia).
    assert (L8 : (length pb < 8)%nat) by (rewrite Lpb; unfold pad_need; apply Nat.mod_upper_bound; lia).
    (* the position is exact *)
    assert (EX : sl data p0 (stuff b1) /\ pos = p0 + Z.of_nat (length (stuff b1))).
    { destruct Alt as [Alt|NM]; [exact Alt|exfalso].
      (* the marker that ends the segment lies at or behind pos *)
      destruct SG as [Hm SM].
      assert (Hpos : pos <= p0 + Z.of_nat (length (stuff bs))).
      { pose proof I as (L & E & V & SRC & _). pose proof (source_segment data p0 L E _ _ bs m (conj Hm SM) SRC) as [[L2 EL] [ED Bn]].
        assert (br_next s <= p0 + Z.of_nat (length (stuff bs)) \/ E = []) as [Hn|HE].
        { destruct E as [|e E]; [right; reflexivity|left]. rewrite (ED ltac:(discriminate)) in SRC.
          destruct SRC as (_ & _ & _ & C). destruct C as [(? & _)|[[j (_ & -> & _)]|[j (_ & -> & ? & _)]]]; [discriminate|lia|lia]. }
        - assert (pos <= br_next s); [|lia]. unfold br_finish in EF.
          destruct (pad_seen s) as [[z0 p1]| |]; cbn [jbind] in EF; try discriminate.
          destruct (give_back data (br_next s) _ (br_pos s)) as [q| |]; cbn [jbind] in EF; try discriminate.
          destruct (Z.ltb_spec (br_next s) q); [discriminate|]. injection EF as _ _ <-. lia.
        - assert (pos <= br_pos s).
          { unfold br_finish in EF.
            destruct (pad_seen s) as [[z0 p1]| |]; cbn [jbind] in EF; try discriminate.
            assert (GB : forall nx q p1 p2, give_back data nx q p1 = JOk p2 -> p2 <= p1).
            { clear. intros nx q; induction q as [|q IH]; intros p1 p2 E; cbn [give_back] in E; [injection E as <-; lia|].
              destruct (p1 - 1 <? nx); cbn [jbind] in E.
              - destruct (aget data (p1 - 1)) as [a| |]; cbn [jbind] in E; try discriminate.
                destruct (a =? 0); cbn [jbind] in E.
                + destruct (aget data (p1 - 1 - 1)) as [c| |]; cbn [jbind] in E; try discriminate.
                  destruct (c =? 255); apply IH in E; lia.
                + apply IH in E; lia.
              - apply IH in E; lia. }
            destruct (give_back data (br_next s) _ (br_pos s)) as [q| |] eqn:G; cbn [jbind] in EF; try discriminate.
            apply GB in G. destruct (br_next s <? q); [discriminate|]. injection EF as _ _ <-. lia. }
          subst E. destruct SRC as (_ & _ & _ & C). destruct C as [(_ & Epp & _)|[[j (? & _)]|[j (? & _)]]]; try discriminate.
          assert (LE : length (stuff bs) = (length (stuff L) + length (stuff L2))%nat) by (rewrite EL, stuff_app, app_length; reflexivity). lia. }
      apply Hm. apply sl_suffix in SM.
      apply (NM (p0 + Z.of_nat (length (stuff bs))) m Hpos).
      - pose proof (sl_aget _ _ _ 0 255 SM eq_refl) as G. rewrite Z.add_0_r in G. exact G.
      - exact (sl_aget _ _ _ 1 m SM eq_refl). }
    destruct EX as [SL1 ->].
    destruct SG as [Hm SM].
    assert (PX : exists L2, bs = b1 ++ L2).
    { destruct SM as [pre [rest [E1 H1]]]. destruct SL1 as [pre2 [rest2 [E2 H2]]].
      assert (X : pre = pre2 /\ (stuff bs ++ [255; m]) ++ rest = stuff b1 ++ rest2) by (rewrite E1 in E2; apply app_len_inj in E2; [exact E2|lia]).
      destruct X as [_ X]. rewrite <- app_assoc in X. cbn [app] in X. eapply (stuff_prefix bs b1 m rest2 rest); [exact Hm|symmetry; exact X]. }
    destruct PX as [L2 EL].
    assert (F1 : firstn (length b1) bs = b1) by (rewrite EL; apply firstn_app_exact).
    rewrite F1. auto.
Qed.
