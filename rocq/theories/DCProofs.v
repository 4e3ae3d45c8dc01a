(** The DC section: visiting order, round trip, safety. *)
From Verif Require Import Base Prob EntropyModel EntropyProofs LehmerProofs CtxTables CoefModel CoefProofs.

(** * Visiting order *)

(** Every component is visited in raster order: [cnt] blocks of each have been seen. *)
Fixpoint walk (ms : list cmeta) (cnt : list nat) (vs : list (nat * nat * nat)) : option (list nat) :=
  match vs with
  | [] => Some cnt
  | (i, y, x) :: r =>
      match nth_error ms i, nth_error cnt i with
      | Some m, Some c =>
          if (x <? cm_w m)%nat && (y <? cm_h m)%nat && (y * cm_w m + x =? c)%nat then walk ms (upd cnt i (S c)) r else None
      | _, _ => None
      end
  end.

(** UpdateSubsamplingDerivatives (brunsli_decode.cc:2201-2223): every component has
    v_samp block rows per MCU row. *)
Definition metas_ok (ms : list cmeta) : Prop :=
  Forall (fun m => (1 <= cm_w m)%nat /\ (1 <= cm_vs m)%nat /\ cm_h m = (mcu_rows ms * cm_vs m)%nat) ms.

Lemma walk_row ms i m : forall n x0 cnt y rest, nth_error ms i = Some m -> nth_error cnt i = Some (y * cm_w m + x0)%nat ->
  (x0 + n <= cm_w m)%nat -> (y < cm_h m)%nat ->
  walk ms cnt (map (fun x => (i, y, x)) (seq x0 n) ++ rest) = walk ms (upd cnt i (y * cm_w m + x0 + n)%nat) rest.
Proof.
  induction n as [|n IH]; intros x0 cnt y rest Hm Hc Hx Hy; cbn [seq map app].
  - rewrite Nat.add_0_r. f_equal. clear -Hc. revert i Hc. induction cnt as [|c cnt IH]; intros i H; destruct i; cbn in *; try discriminate.
    + injection H as ->. reflexivity.
    + f_equal. apply IH, H.
  - cbn [walk]. rewrite Hm, Hc. destruct (Nat.ltb_spec x0 (cm_w m)); [|lia]. destruct (Nat.ltb_spec y (cm_h m)); [|lia].
    rewrite Nat.eqb_refl. cbn [andb].
    assert (i < length cnt)%nat as Hi by (apply nth_error_Some; rewrite Hc; discriminate).
    rewrite IH; [|exact Hm|rewrite nth_error_upd_same by exact Hi; f_equal; lia|lia|exact Hy].
    rewrite upd_upd. f_equal. f_equal. lia.
Qed.

Lemma walk_comp ms i m r : forall n k cnt rest, nth_error ms i = Some m -> nth_error cnt i = Some ((r * cm_vs m + k) * cm_w m)%nat ->
  (k + n <= cm_vs m)%nat -> ((r + 1) * cm_vs m <= cm_h m)%nat ->
  walk ms cnt (flat_map (fun iy => map (fun x => (i, r * cm_vs m + iy, x)%nat) (seq 0 (cm_w m))) (seq k n) ++ rest) =
  walk ms (upd cnt i ((r * cm_vs m + k + n) * cm_w m)%nat) rest.
Proof.
  induction n as [|n IH]; intros k cnt rest Hm Hc Hk Hr; cbn [seq flat_map app].
  - rewrite Nat.add_0_r. f_equal. clear -Hc. revert i Hc. induction cnt as [|c cnt IH]; intros i H; destruct i; cbn in *; try discriminate.
    + injection H as ->. reflexivity.
    + f_equal. apply IH, H.
  - rewrite <- app_assoc. assert (i < length cnt)%nat as Hi by (apply nth_error_Some; rewrite Hc; discriminate).
    rewrite (walk_row ms i m (cm_w m) 0 cnt (r * cm_vs m + k)); [|exact Hm|rewrite Hc; f_equal; lia|lia|nia].
    rewrite IH; [|exact Hm| |lia|exact Hr].
    + rewrite upd_upd. f_equal. f_equal. lia.
    + rewrite nth_error_upd_same by exact Hi. f_equal. lia.
Qed.

Lemma walk_mcu_row r : forall suf pre rest, Forall (fun m => ((r + 1) * cm_vs m <= cm_h m)%nat) suf ->
  walk (pre ++ suf) (map (fun m => (r + 1) * cm_vs m * cm_w m)%nat pre ++ map (fun m => r * cm_vs m * cm_w m)%nat suf) (mcu_row r (length pre) suf ++ rest)
  = walk (pre ++ suf) (map (fun m => (r + 1) * cm_vs m * cm_w m)%nat (pre ++ suf)) rest.
Proof.
  induction suf as [|m suf IH]; intros pre rest F; cbn [mcu_row map app].
  - rewrite !app_nil_r. reflexivity.
  - rewrite <- app_assoc. unfold comp_rows.
    rewrite (walk_comp (pre ++ m :: suf) (length pre) m r (cm_vs m) 0).
    + assert (upd (map (fun m => (r + 1) * cm_vs m * cm_w m)%nat pre ++ (r * cm_vs m * cm_w m)%nat :: map (fun m => r * cm_vs m * cm_w m)%nat suf)
                (length pre) ((r * cm_vs m + 0 + cm_vs m) * cm_w m)%nat
              = map (fun m => (r + 1) * cm_vs m * cm_w m)%nat (pre ++ [m]) ++ map (fun m => r * cm_vs m * cm_w m)%nat suf) as ->.
      { rewrite map_app. cbn [map]. rewrite <- app_assoc. cbn [app].
        replace (length pre) with (length (map (fun m => (r + 1) * cm_vs m * cm_w m)%nat pre)) by apply map_length.
        rewrite upd_app_last. f_equal. f_equal. lia. }
      specialize (IH (pre ++ [m]) rest (Forall_inv_tail F)). rewrite <- app_assoc in IH. cbn [app] in IH.
      rewrite app_length in IH. cbn [length] in IH. rewrite (Nat.add_1_r (length pre)) in IH. exact IH.
    + rewrite nth_error_app2, Nat.sub_diag by lia. reflexivity.
    + rewrite nth_error_app2; rewrite map_length; [|lia]. rewrite Nat.sub_diag. cbn [nth_error]. f_equal. lia.
    + lia.
    + apply (Forall_inv F).
Qed.

Lemma walk_rows ms : forall n r, metas_ok ms -> (r + n = mcu_rows ms)%nat ->
  walk ms (map (fun m => r * cm_vs m * cm_w m)%nat ms) (flat_map (fun r => mcu_row r 0 ms) (seq r n)) =
  Some (map (fun m => (r + n) * cm_vs m * cm_w m)%nat ms).
Proof.
  induction n as [|n IH]; intros r M H; cbn [seq flat_map].
  - cbn [walk]. rewrite Nat.add_0_r. reflexivity.
  - rewrite (walk_mcu_row r ms []).
    + cbn [app]. rewrite Nat.add_1_r. rewrite IH; [|exact M|lia]. f_equal. apply map_ext. intros m. f_equal. f_equal. lia.
    + eapply Forall_impl; [|exact M]. cbv beta. intros m (_ & V & ->). nia.
Qed.

(** All blocks of all components are visited once, in raster order. *)
Lemma walk_visits ms : metas_ok ms -> walk ms (repeat O (length ms)) (visits ms) = Some (map (fun m => cm_w m * cm_h m)%nat ms).
Proof.
  intros M. unfold visits. replace (repeat O (length ms)) with (map (fun m => 0 * cm_vs m * cm_w m)%nat ms).
  2:{ clear. induction ms as [|m ms IH]; cbn [map length repeat]; [reflexivity|]. rewrite IH. f_equal. }
  rewrite walk_rows; [|exact M|reflexivity]. f_equal. apply map_ext_in. intros m Hm. unfold metas_ok in M. rewrite Forall_forall in M.
  destruct (M m Hm) as (_ & _ & ->). cbn [Nat.add]. lia.
Qed.

(** * Planes *)

(** A plane after [c] blocks: [f] of the blocks seen, [g] of the others. *)
Definition mixed {A B} (f g : A -> B) (c : nat) (p : list A) : list B := map f (firstn c p) ++ map g (skipn c p).

Lemma mixed_length {A B} (f g : A -> B) c p : length (mixed f g c p) = length p.
Proof. unfold mixed. rewrite app_length, !map_length, <- app_length, firstn_skipn. reflexivity. Qed.
Lemma mixed_0 {A B} (f g : A -> B) p : mixed f g 0 p = map g p.
Proof. reflexivity. Qed.
Lemma mixed_all {A B} (f g : A -> B) c p : (length p <= c)%nat -> mixed f g c p = map f p.
Proof. intros H. unfold mixed. rewrite firstn_all2, skipn_all2 by exact H. cbn [map]. apply app_nil_r. Qed.
Lemma mixed_nth {A B} (f g : A -> B) c p j : nth_error (mixed f g c p) j = option_map (if (j <? c)%nat then f else g) (nth_error p j).
Proof.
  unfold mixed. destruct (le_lt_dec (length p) j) as [H|H].
  - rewrite (proj2 (nth_error_None p j)) by lia. apply nth_error_None.
    rewrite app_length, !map_length, <- app_length, firstn_skipn. exact H.
  - destruct (Nat.ltb_spec j c) as [Hc|Hc].
    + rewrite nth_error_app1 by (rewrite map_length, firstn_length; lia).
      rewrite nth_error_map. f_equal. rewrite <- (firstn_skipn c p) at 2. rewrite nth_error_app1; [reflexivity|rewrite firstn_length; lia].
    + rewrite nth_error_app2 by (rewrite map_length, firstn_length; lia).
      rewrite map_length, nth_error_map, firstn_length, Nat.min_l by lia.
      f_equal. rewrite <- (firstn_skipn c p) at 2. rewrite nth_error_app2 by (rewrite firstn_length; lia). rewrite firstn_length, Nat.min_l by lia. reflexivity.
Qed.
Lemma nth_error_ext {A} (l1 l2 : list A) : (forall i, nth_error l1 i = nth_error l2 i) -> l1 = l2.
Proof.
  revert l2. induction l1 as [|a l1 IH]; intros l2 H; destruct l2 as [|b l2].
  - reflexivity.
  - specialize (H O). discriminate.
  - specialize (H O). discriminate.
  - pose proof (H O) as H0. cbn in H0. injection H0 as ->. f_equal. apply IH. intros i. apply (H (S i)).
Qed.
Lemma mixed_step {A B} (f g : A -> B) c p b : nth_error p c = Some b -> upd (mixed f g c p) c (f b) = mixed f g (S c) p.
Proof.
  intros H. apply nth_error_ext. intros j.
  assert (c < length p)%nat as Hc by (apply nth_error_Some; rewrite H; discriminate).
  destruct (Nat.eq_dec c j) as [<-|N].
  - rewrite nth_error_upd_same by (rewrite mixed_length; exact Hc). rewrite mixed_nth, H.
    destruct (Nat.ltb_spec c (S c)); [reflexivity|lia].
  - rewrite nth_error_upd_other by exact N. rewrite !mixed_nth. f_equal.
    destruct (Nat.ltb_spec j c), (Nat.ltb_spec j (S c)); try reflexivity; lia.
Qed.

Definition i16 (v : Z) : Prop := -32768 <= v <= 32767.
Lemma to_i16_id v : i16 v -> to_i16 v = v.
Proof. unfold i16, to_i16. intros H. rewrite Z.mod_small by lia. lia. Qed.
Lemma to_i16_range v : i16 (to_i16 v).
Proof. unfold i16, to_i16. pose proof (Z.mod_pos_bound (v + 32768) 65536). lia. Qed.

Definition block_ok (b : block) : Prop := length b = 64%nat /\ Forall i16 b.
Definition zero_block : block := repeat 0 64.
Definition dc_only (b : block) : block := nth 0 b 0 :: repeat 0 63.

Lemma block_dc_i16 b : block_ok b -> i16 (nth 0 b 0).
Proof. intros [L F]. destruct b as [|v b]; [discriminate|]. apply (Forall_inv F). Qed.

(** * Prediction *)

Lemma predict_ext w p q x y : (x < w)%nat -> (forall j, (j < y * w + x)%nat -> dc_at p j = dc_at q j) -> predict w p x y = predict w q x y.
Proof.
  intros Hx H. unfold predict. destruct (Nat.eqb_spec y 0) as [->|Hy]; destruct (Nat.eqb_spec x 0) as [->|Hx0]; cbn [negb]; [reflexivity| | |].
  - apply H. lia.
  - apply H. nia.
  - rewrite !H by nia. reflexivity.
Qed.

Lemma dc_errors_from_nth w p : forall js es, dc_errors_from w p js = Some es ->
  forall k j, nth_error js k = Some j -> exists e, nth_error es k = Some e /\ e = dc_at p j - predict w p (j mod w) (j / w) /\ Z.abs e <= 2054.
Proof.
  induction js as [|j js IH]; intros es H k j' Hk; [destruct k; discriminate|]. cbn [dc_errors_from] in H.
  destruct (Z.ltb_spec 2054 (Z.abs (dc_at p j - predict w p (j mod w) (j / w)))) as [|Hle]; [discriminate|].
  apply obind_some in H. destruct H as (t & E & H). injection H as <-. destruct k as [|k]; cbn [nth_error] in *.
  - injection Hk as <-. eexists. split; [reflexivity|]. split; [reflexivity|exact Hle].
  - apply (IH t E k j' Hk).
Qed.
Lemma nth_error_seq s n k : (k < n)%nat -> nth_error (seq s n) k = Some (s + k)%nat.
Proof. revert s k. induction n as [|n IH]; intros s k H; [lia|]. destruct k; cbn [seq nth_error]; [f_equal; lia|]. rewrite IH by lia. f_equal. lia. Qed.
Lemma dc_errors_nth m p es x y : dc_errors m p = Some es -> (x < cm_w m)%nat -> (y < cm_h m)%nat ->
  exists e, nth_error es (y * cm_w m + x) = Some e /\ e = dc_at p (y * cm_w m + x) - predict (cm_w m) p x y /\ Z.abs e <= 2054.
Proof.
  intros H Hx Hy. destruct (dc_errors_from_nth _ _ _ _ H (y * cm_w m + x) (y * cm_w m + x)) as (e & E & V & B).
  - rewrite nth_error_seq by nia. reflexivity.
  - exists e. split; [exact E|]. split; [|exact B]. rewrite V. f_equal.
    rewrite Nat.add_comm, Nat.mod_add by lia. rewrite Nat.div_add by lia.
    rewrite (Nat.mod_small x), (Nat.div_small x) by lia. reflexivity.
Qed.

(** * Round trip *)

Section DC.
Variables (ms : list cmeta) (errs : list (list Z)) (planes : list plane) (cmap : list Z) (codes : list (list Z)).
Let n := length ms.

(** What the block state of block [j] has to be. *)
Definition empty_flag (es : list Z) (p : plane) (j : nat) : bool := (nth j es 0 =? 0) && negb (has_ac (nth j p [])).
Definition flagged (es : list Z) (p : plane) (c : nat) (fl : list bool) : Prop :=
  length fl = length p /\ forall j, (j < c)%nat -> nth_error fl j = Some (empty_flag es p j).

Definition comp_inv (i : nat) (m : cmeta) (cnt : list nat) (sts : list dcst) (flags dflags : list (list bool)) (dplanes : list plane) : Prop :=
  exists c st fl dfl p es,
    nth_error cnt i = Some c /\ nth_error sts i = Some st /\ nth_error flags i = Some fl /\ nth_error dflags i = Some dfl /\
    nth_error planes i = Some p /\ nth_error errs i = Some es /\ nth_error dplanes i = Some (mixed dc_only (fun _ => zero_block) c p) /\
    (c <= cm_w m * cm_h m)%nat /\ dcst_ok (cm_w m) st /\ length p = (cm_w m * cm_h m)%nat /\ Forall block_ok p /\
    dc_errors m p = Some es /\ flagged es p c fl /\ flagged es p c dfl.
Definition dc_inv cnt sts flags dflags dplanes : Prop :=
  forall i m, nth_error ms i = Some m -> comp_inv i m cnt sts flags dflags dplanes.

Lemma nth_error_lt {A} (l : list A) i a : nth_error l i = Some a -> (i < length l)%nat.
Proof. intros H. apply nth_error_Some. rewrite H. discriminate. Qed.

Lemma flagged_step es p c fl e : flagged es p c fl -> (c < length p)%nat -> e = empty_flag es p c -> flagged es p (S c) (upd fl c e).
Proof.
  intros [L F] Hc ->. split; [rewrite upd_length; exact L|]. intros j Hj. destruct (Nat.eq_dec c j) as [<-|N].
  - apply nth_error_upd_same. lia.
  - rewrite nth_error_upd_other by exact N. apply F. lia.
Qed.

Lemma dc_run : forall vs cnt cnt' sts flags dflags dplanes, walk ms cnt vs = Some cnt' -> dc_inv cnt sts flags dflags dplanes ->
  exists its flags', enc_dc ms errs planes vs sts flags = Some (its, flags') /\ Forall (cshape (9 * Z.of_nat n)) its /\
    exists sts' dplanes' dflags', dc_inv cnt' sts' flags' dflags' dplanes' /\
      (Forall (has_table cmap codes) its -> elock cmap codes (dec_dc cmap codes ms vs sts dplanes dflags) its (dplanes', dflags')) /\
      length sts' = length sts /\ length flags' = length flags /\ length dflags' = length dflags /\ length dplanes' = length dplanes.
Proof.
  induction vs as [|[[i y] x] vs IH]; intros cnt cnt' sts flags dflags dplanes W I.
  - cbn [walk] in W. injection W as <-. exists [], flags. split; [reflexivity|]. split; [constructor|].
    exists sts, dplanes, dflags. split; [exact I|]. split; [intros _; apply elock_ret|]. auto.
  - cbn [walk] in W. destruct (nth_error ms i) as [m|] eqn:Em; [|discriminate].
    destruct (I i m Em) as (c & st & fl & dfl & p & es & Ec & Es & Ef & Edf & Ep & Ee & Ed & Hc & Ok & Lp & Bp & Er & Fl & Dfl).
    rewrite Ec in W. destruct (Nat.ltb_spec x (cm_w m)) as [Hx|]; [|discriminate].
    destruct (Nat.ltb_spec y (cm_h m)) as [Hy|]; [|discriminate]. destruct (Nat.eqb_spec (y * cm_w m + x) c) as [Ej|]; [|discriminate].
    cbn [andb] in W. assert (c < length p)%nat as Hcp by (rewrite Lp; nia).
    destruct (nth_error p c) as [b|] eqn:Eb; [|apply nth_error_None in Eb; lia].
    destruct (dc_errors_nth m p es x y Er Hx Hy) as (e & Ee' & Ve & Be). rewrite Ej in Ee', Ve.
    destruct (enc_dc_block_total (cm_w m) (Z.of_nat i) st (Z.of_nat x) e (has_ac b) Ok ltac:(lia) ltac:(lia) Be) as (bits & st' & T & Ok' & Sh).
    pose proof (nth_error_lt _ _ _ Em) as Li. pose proof (nth_error_lt _ _ _ Es) as Li2. pose proof (nth_error_lt _ _ _ Ef) as Li3.
    pose proof (nth_error_lt _ _ _ Edf) as Li4. pose proof (nth_error_lt _ _ _ Ed) as Li5. pose proof (nth_error_lt _ _ _ Ec) as Li6.
    assert ((e =? 0) && negb (has_ac b) = empty_flag es p c) as Fe.
    { unfold empty_flag. rewrite (nth_error_nth' es c e 0 Ee'), (nth_error_nth' p c b [] Eb). reflexivity. }
    assert (Forall block_ok p) as Bp' by exact Bp. rewrite Forall_forall in Bp'. pose proof (Bp' b (nth_error_In _ _ Eb)) as Bb.
    destruct (IH (upd cnt i (S c)) cnt' (upd sts i st') (upd flags i (upd fl c ((e =? 0) && negb (has_ac b))))
                 (upd dflags i (upd dfl c ((e =? 0) && negb (has_ac b)))) (upd dplanes i (mixed dc_only (fun _ => zero_block) (S c) p)) W)
      as (its & flags' & En & Shs & sts' & dplanes' & dflags' & Inv & Lk & LL).
    { intros i' m' Em'. destruct (Nat.eq_dec i i') as [<-|N].
      - rewrite Em in Em'. injection Em' as <-. exists (S c), st', (upd fl c ((e =? 0) && negb (has_ac b))), (upd dfl c ((e =? 0) && negb (has_ac b))), p, es.
        rewrite !nth_error_upd_same by assumption. split; [reflexivity|]. split; [reflexivity|]. split; [reflexivity|]. split; [reflexivity|].
        split; [exact Ep|]. split; [exact Ee|]. split; [reflexivity|]. split; [lia|]. split; [exact Ok'|]. split; [exact Lp|]. split; [exact Bp|].
        split; [exact Er|]. split; apply flagged_step; assumption.
      - unfold comp_inv. rewrite !nth_error_upd_other by exact N. apply I, Em'. }
    cbn [enc_dc]. rewrite Em. unfold obind at 1. rewrite Es. unfold obind at 1. rewrite Ee. unfold obind at 1. rewrite Ep. unfold obind at 1.
    rewrite Ef. unfold obind at 1. cbv zeta. rewrite Ej, Ee'. unfold obind at 1. rewrite Eb. unfold obind at 1. rewrite T. unfold obind at 1.
    destruct Fl as [Lfl Fl]. destruct Dfl as [Ldfl Dfl].
    rewrite zset_range by lia. rewrite Nat2Z.id. unfold obind at 1. rewrite En. unfold obind. cbn [fst snd].
    eexists; eexists. split; [reflexivity|]. split.
    { apply Forall_app. split; [|exact Shs]. eapply cshapes_mono; [|exact Sh]. unfold n. lia. }
    exists sts', dplanes', dflags'. split; [exact Inv|]. rewrite !upd_length in LL. split; [|exact LL].
    intros TT. apply Forall_app in TT. destruct TT as [T1 T2].
    destruct (enc_dc_block_lock cmap codes _ _ _ _ _ _ _ _ T T1) as (sg & ab & Lb & Vb).
    cbn [dec_dc]. rewrite Em. cbn [eget]. rewrite Es. cbn [eget]. rewrite Ed. cbn [eget]. rewrite Edf. cbn [eget]. cbv zeta.
    eapply elock_bind; [exact Lb|]. cbv beta iota. rewrite Ej, zset_range by lia. rewrite Nat2Z.id. cbn [eget].
    rewrite mixed_nth, Eb. cbn [option_map]. destruct (Nat.ltb_spec c c); [lia|]. cbn [eget].
    assert (put_dc zero_block (to_i16 ((1 - 2 * sg) * ab + predict (cm_w m) (mixed dc_only (fun _ => zero_block) c p) x y)) = dc_only b) as ->.
    { rewrite Vb. rewrite (predict_ext (cm_w m) (mixed dc_only (fun _ : block => zero_block) c p) p x y Hx).
      - assert (dc_at p c = nth 0 b 0) as Hd by (unfold dc_at; rewrite (nth_error_nth' p c b [] Eb); reflexivity).
        replace (e + predict (cm_w m) p x y) with (nth 0 b 0) by lia. rewrite to_i16_id by (apply block_dc_i16, Bb). reflexivity.
      - intros j Hj. unfold dc_at. pose proof (mixed_nth dc_only (fun _ : block => zero_block) c p j) as Mn.
        destruct (Nat.ltb_spec j c); [|lia]. destruct (nth_error p j) as [bj|] eqn:Ebj; [|apply nth_error_None in Ebj; lia].
        cbn [option_map] in Mn.
        pose proof (nth_error_nth' _ _ _ [] Mn) as R1. pose proof (nth_error_nth' _ _ _ [] Ebj) as R2. unfold plane, block in *. rewrite R1, R2. reflexivity. }
    rewrite (mixed_step dc_only (fun _ : block => zero_block) c p b Eb). apply Lk, T2.
Qed.
End DC.

(** * Safety: any input *)

(** A plane under construction, [c] blocks decoded: the visited DC coefficients differ from
    their prediction by at most 2054 (modulo 2^16), everything else is zero. *)
Definition dc_plane_ok (m : cmeta) (c : nat) (p : plane) : Prop :=
  length p = (cm_w m * cm_h m)%nat /\
  (forall j b, nth_error p j = Some b -> exists v, b = v :: repeat 0 63 /\ i16 v) /\
  (forall x y, (x < cm_w m)%nat -> (y * cm_w m + x < c)%nat ->
     exists r, Z.abs r <= 2054 /\ dc_at p (y * cm_w m + x) = to_i16 (r + predict (cm_w m) p x y)).

Definition dc_dinv (ms : list cmeta) (cnt : list nat) (sts : list dcst) (planes : list plane) (flags : list (list bool)) : Prop :=
  forall i m, nth_error ms i = Some m -> exists c st p fl,
    nth_error cnt i = Some c /\ nth_error sts i = Some st /\ nth_error planes i = Some p /\ nth_error flags i = Some fl /\
    (c <= cm_w m * cm_h m)%nat /\ dcst_ok (cm_w m) st /\ dc_plane_ok m c p /\ length fl = (cm_w m * cm_h m)%nat.

Lemma dc_at_upd_same p j b v : nth_error p j = Some b -> (0 < length b)%nat -> dc_at (upd p j (put_dc b v)) j = v.
Proof.
  intros H L. unfold dc_at. pose proof (nth_error_upd_same p j (put_dc b v) (nth_error_lt _ _ _ H)) as E.
  pose proof (nth_error_nth' _ _ _ [] E) as R. unfold plane, block in *. rewrite R. destruct b; [cbn in L; lia|reflexivity].
Qed.
Lemma dc_at_upd_other p i j b : i <> j -> dc_at (upd p i b) j = dc_at p j.
Proof. intros H. unfold dc_at. f_equal. apply nth_upd_other. exact H. Qed.

Lemma raster_unique w y x y' x' : (y * w + x = y' * w + x')%nat -> (x < w)%nat -> (x' < w)%nat -> y = y' /\ x = x'.
Proof.
  intros H Hx Hx'. destruct (lt_eq_lt_dec y y') as [[L| ->]|L]; [exfalso|split; [reflexivity|lia]|exfalso].
  - assert ((y + 1) * w <= y' * w)%nat by (apply Nat.mul_le_mono_r; lia). lia.
  - assert ((y' + 1) * w <= y * w)%nat by (apply Nat.mul_le_mono_r; lia). lia.
Qed.

Lemma dec_dc_safe cmap codes ms : tables_ok cmap codes (9 * Z.of_nat (length ms)) ->
  forall vs cnt cnt' sts planes flags, walk ms cnt vs = Some cnt' -> dc_dinv ms cnt sts planes flags ->
  esafe (fun '(planes', flags') => exists sts', dc_dinv ms cnt' sts' planes' flags' /\ length planes' = length planes /\ length flags' = length flags)
        (dec_dc cmap codes ms vs sts planes flags).
Proof.
  intros T. induction vs as [|[[i y] x] vs IH]; intros cnt cnt' sts planes flags W I.
  - cbn [walk] in W. injection W as <-. cbn [dec_dc esafe]. exists sts. auto.
  - cbn [walk] in W. destruct (nth_error ms i) as [m|] eqn:Em; [|discriminate].
    destruct (I i m Em) as (c & st & p & fl & Ec & Es & Ep & Ef & Hc & Ok & (Lp & Bp & Rp) & Lf).
    rewrite Ec in W. destruct (Nat.ltb_spec x (cm_w m)) as [Hx|]; [|discriminate].
    destruct (Nat.ltb_spec y (cm_h m)) as [Hy|]; [|discriminate]. destruct (Nat.eqb_spec (y * cm_w m + x) c) as [Ej|]; [|discriminate].
    cbn [andb] in W. assert (c < length p)%nat as Hcp by (rewrite Lp; nia).
    destruct (nth_error p c) as [b|] eqn:Eb; [|apply nth_error_None in Eb; lia].
    destruct (Bp c b Eb) as (v0 & Vb & _).
    pose proof (nth_error_lt _ _ _ Em) as Li. pose proof (nth_error_lt _ _ _ Es) as Li2. pose proof (nth_error_lt _ _ _ Ef) as Li3.
    pose proof (nth_error_lt _ _ _ Ep) as Li4. pose proof (nth_error_lt _ _ _ Ec) as Li5.
    cbn [dec_dc]. rewrite Em. cbn [eget]. rewrite Es. cbn [eget]. rewrite Ep. cbn [eget]. rewrite Ef. cbn [eget]. cbv zeta.
    eapply esafe_bind; [apply (dec_dc_block_safe cmap codes (cm_w m) (Z.of_nat i) st (Z.of_nat x) (9 * Z.of_nat (length ms))); [exact Ok|lia|lia|lia|exact T]|].
    intros [[[e sg] ab] st'] (A1 & A2 & _ & Ok'). cbv beta iota. rewrite Ej, zset_range by lia. rewrite Nat2Z.id. cbn [eget]. rewrite Eb. cbn [eget].
    set (v := to_i16 ((1 - 2 * sg) * ab + predict (cm_w m) p x y)).
    eapply esafe_mono; [eapply (IH _ _ _ _ _ W)|].
    + intros i' m' Em'. destruct (Nat.eq_dec i i') as [<-|N].
      * rewrite Em in Em'. injection Em' as <-. exists (S c), st', (upd p c (put_dc b v)), (upd fl c e).
        rewrite !nth_error_upd_same by assumption. split; [reflexivity|]. split; [reflexivity|]. split; [reflexivity|]. split; [reflexivity|].
        split; [lia|]. split; [exact Ok'|]. split; [|rewrite upd_length; exact Lf]. split; [rewrite upd_length; exact Lp|]. split.
        -- intros j b' Hb'. destruct (Nat.eq_dec c j) as [<-|Nj].
           ++ rewrite nth_error_upd_same in Hb' by exact Hcp. injection Hb' as <-. exists v. rewrite Vb. split; [reflexivity|apply to_i16_range].
           ++ rewrite nth_error_upd_other in Hb' by exact Nj. apply (Bp j b' Hb').
        -- intros x' y' Hx' Hj'.
           assert (forall q, (q < c)%nat -> dc_at (upd p c (put_dc b v)) q = dc_at p q) as Hq by (intros q Hq; apply dc_at_upd_other; lia).
           destruct (Nat.eq_dec (y' * cm_w m + x') c) as [Ec'|Nc].
           ++ destruct (raster_unique (cm_w m) y' x' y x) as [-> ->]; [lia|lia|lia|]. exists ((1 - 2 * sg) * ab). split; [nia|].
              rewrite Ej, dc_at_upd_same; [|exact Eb|rewrite Vb; cbn; lia]. unfold v. f_equal. f_equal.
              apply predict_ext; [exact Hx|]. intros q Hq'. symmetry. apply Hq. lia.
           ++ destruct (Rp x' y' Hx' ltac:(lia)) as (r & Hr & Er). exists r. split; [exact Hr|]. rewrite Hq by lia. rewrite Er. f_equal. f_equal.
              apply predict_ext; [exact Hx'|]. intros q Hq'. symmetry. apply Hq. lia.
      * rewrite !nth_error_upd_other by exact N. apply I, Em'.
    + intros [planes' flags'] (sts' & D & L1 & L2). rewrite upd_length in L1. rewrite upd_length in L2. exists sts'. auto.
Qed.
