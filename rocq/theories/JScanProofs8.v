(** Which blocks a scan visits, and how far each coefficient is known. *)
From Coq Require Import ZArith List Bool Lia.
From Verif Require Import Base JpegModel LehmerModel CoefModel JBitModel JWriteProofs JReadProofs JHuffModel JHuffProofs JHuffPair
  JScanModel JScanProofs1 JScanProofs2 JScanProofs3 JScanProofs4 JScanProofs5 JScanProofs6 JScanProofs7.
Import ListNotations.
Local Open Scope Z_scope.

(** * Geometry *)

Lemma in_iotaZ n x : In x (iotaZ n) <-> 0 <= x < n.
Proof.
  unfold iotaZ. rewrite in_map_iff. split.
  - intros (k & <- & H). apply in_seq in H. lia.
  - intros H. exists (Z.to_nat x). split; [lia|]. apply in_seq. lia.
Qed.

Lemma NoDup_iotaZ n : NoDup (iotaZ n).
Proof. unfold iotaZ. apply FinFun.Injective_map_NoDup; [|apply seq_NoDup]. intros a b H. lia. Qed.

Lemma NoDup_app_disj {A} (a b : list A) : NoDup a -> NoDup b -> (forall x, In x a -> ~ In x b) -> NoDup (a ++ b).
Proof.
  induction a as [|x a IH]; intros Ha Hb D; [exact Hb|]. apply NoDup_cons_iff in Ha as [N Ha]. cbn [app]. constructor.
  - intros H. apply in_app_or in H as [H|H]; [exact (N H)|]. exact (D x (or_introl eq_refl) H).
  - apply IH; auto. intros y Hy. apply D. right. exact Hy.
Qed.

(** A list of groups has no repetition when the group can be told from the element. *)
Lemma NoDup_groups {A B K} (f : A -> list B) (h : A -> K) (k : B -> K) l :
  (forall a x, In a l -> In x (f a) -> k x = h a) -> NoDup (map h l) -> (forall a, In a l -> NoDup (f a)) -> NoDup (flat_map f l).
Proof.
  induction l as [|a l IH]; intros HK HN HF; cbn [flat_map]; [constructor|].
  cbn [map] in HN. apply NoDup_cons_iff in HN as [N1 N2]. apply NoDup_app_disj.
  - apply HF. left. reflexivity.
  - apply IH; auto. + intros; apply HK; auto. right; auto. + intros; apply HF; right; auto.
  - intros x Hx Hy. apply in_flat_map in Hy as (b & Hb & Hy). apply N1. rewrite <- (HK a x (or_introl eq_refl) Hx), (HK b x (or_intror Hb) Hy).
    apply in_map. exact Hb.
Qed.

Lemma map_flat_map {A B C} (f : B -> C) (g : A -> list B) l : map f (flat_map g l) = flat_map (fun a => map f (g a)) l.
Proof. induction l; cbn [flat_map]; [reflexivity|]. rewrite map_app, IHl. reflexivity. Qed.

(** Facts about the frame that the reader establishes. *)
Record frame_ok (j : jpeg) : Prop := mkFrame {
  fr_w : 1 <= j_width j; fr_h : 1 <= j_height j;
  fr_n : (length (j_comps j) <= 4)%nat;
  fr_mh : 1 <= j_max_h j; fr_mv : 1 <= j_max_v j;
  fr_rows : j_mcu_rows j = div_ceil (j_height j) (8 * j_max_v j);
  fr_cols : j_mcu_cols j = div_ceil (j_width j) (8 * j_max_h j);
  fr_comp : forall c, In c (j_comps j) -> 1 <= c_h c <= 15 /\ 1 <= c_v c <= 15
     /\ c_wb c = j_mcu_cols j * c_h c /\ c_hb c = j_mcu_rows j * c_v c
     /\ Z.of_nat (length (c_coeffs c)) = c_wb c * c_hb c }.

(** The components named by a scan. *)
Definition scan_comps_ok (comps : list component) (cs : list compscan) : Prop :=
  cs <> [] /\ NoDup (map cs_comp cs) /\ Forall (fun s => 0 <= cs_comp s < Z.of_nat (length comps)) cs.

Lemma div_ceil_mul a b h : 1 <= b -> 0 <= a -> 1 <= h -> div_ceil (a * h) b <= div_ceil a b * h.
Proof.
  intros Hb Ha Hh. unfold div_ceil.
  assert (H : a * h + b - 1 <= b * ((a + b - 1) / b * h) + (b - 1)).
  { pose proof (Z.div_mod (a + b - 1) b ltac:(lia)) as D. pose proof (Z.mod_pos_bound (a + b - 1) b ltac:(lia)) as M. nia. }
  apply Z.lt_succ_r. apply Z.div_lt_upper_bound; [lia|]. nia.
Qed.

Lemma div_ceil_pos a b : 1 <= a -> 1 <= b -> 1 <= div_ceil a b.
Proof. intros. unfold div_ceil. apply Z.div_le_lower_bound; lia. Qed.

Lemma read_write_dims j p : frame_ok j -> read_dims j p = write_dims j p.
Proof.
  intros F. unfold read_dims, write_dims. destruct (sp_inter p); [|reflexivity]. cbv zeta iota. rewrite !Z.mul_1_r, (fr_rows _ F), (fr_cols _ F). reflexivity.
Qed.

Lemma write_dims_geo j j' p : map geo (j_comps j) = map geo (j_comps j') -> j_width j = j_width j' -> j_height j = j_height j' ->
  j_max_h j = j_max_h j' -> j_max_v j = j_max_v j' -> write_dims j p = write_dims j' p.
Proof.
  intros E E1 E2 E3 E4. unfold write_dims. cbv zeta. pose proof (same_geo _ _ (match sp_cs p with s :: _ => cs_comp s | [] => 0 end) E) as G.
  unfold geo, set_coeffs in G. injection G as G1 G2 G3 G4 G5 G6. rewrite G2, G3, E1, E2, E3, E4. reflexivity.
Qed.

Lemma comp_at_in comps i : 0 <= i < Z.of_nat (length comps) -> In (comp_at comps i) comps.
Proof. intros H. apply nth_In. lia. Qed.

Section Geometry.
  Variable j : jpeg.
  Variable p : scanpar.
  Hypothesis F : frame_ok j.
  Hypothesis S : scan_comps_ok (j_comps j) (sp_cs p).
  Hypothesis SI : sp_inter p = false -> exists s, sp_cs p = [s].

  Lemma mcu_in yx : In yx (mcus (fst (read_dims j p)) (snd (read_dims j p))) ->
    0 <= fst yx < fst (read_dims j p) /\ 0 <= snd yx < snd (read_dims j p).
  Proof.
    unfold mcus. intros H. apply in_flat_map in H as (y & Hy & H). apply in_map_iff in H as (x & <- & Hx).
    apply in_iotaZ in Hy, Hx. cbn [fst snd]. lia.
  Qed.

  (** One visit: row and column of the block. *)
  Lemma visit_in yx v : In yx (mcus (fst (read_dims j p)) (snd (read_dims j p))) -> In v (mcu_visits (j_comps j) (sp_cs p) (sp_inter p) yx) ->
    exists si iy ix, In si (sp_cs p) /\ let c := comp_at (j_comps j) (cs_comp si) in
      let nby := if sp_inter p then c_v c else 1 in let nbx := if sp_inter p then c_h c else 1 in
      0 <= iy < nby /\ 0 <= ix < nbx /\ 0 <= fst yx * nby + iy < c_hb c /\ 0 <= snd yx * nbx + ix < c_wb c
      /\ v = (si, (fst yx * nby + iy) * c_wb c + (snd yx * nbx + ix)).
  Proof.
    intros Hm Hv. apply mcu_in in Hm as [Hy Hx]. unfold mcu_visits in Hv. apply in_flat_map in Hv as (si & Hs & Hv). cbv zeta in Hv.
    apply in_flat_map in Hv as (iy & Hiy & Hv). apply in_map_iff in Hv as (ix & <- & Hix). apply in_iotaZ in Hiy, Hix.
    exists si, iy, ix. split; [exact Hs|]. cbv zeta. split; [exact Hiy|]. split; [exact Hix|].
    destruct S as (_ & _ & SB). rewrite Forall_forall in SB. pose proof (fr_comp _ F _ (comp_at_in _ _ (SB si Hs))) as (C1 & C2 & C3 & C4 & C5).
    unfold read_dims in *. destruct (sp_inter p) eqn:EI; cbn [fst snd] in Hy, Hx.
    - rewrite C3, C4. split; [nia|]. split; [nia|reflexivity].
    - destruct (SI eq_refl) as [s0 E0]. rewrite E0 in Hs, Hy, Hx. destruct Hs as [->|[]].
      pose proof (div_ceil_mul (j_height j) (8 * j_max_v j) (c_v (comp_at (j_comps j) (cs_comp si))) ltac:(pose proof (fr_mv _ F); lia) ltac:(pose proof (fr_h _ F); lia) ltac:(lia)) as D1.
      pose proof (div_ceil_mul (j_width j) (8 * j_max_h j) (c_h (comp_at (j_comps j) (cs_comp si))) ltac:(pose proof (fr_mh _ F); lia) ltac:(pose proof (fr_w _ F); lia) ltac:(lia)) as D2.
      rewrite C3, C4, (fr_rows _ F), (fr_cols _ F). split; [lia|]. split; [lia|reflexivity].
  Qed.

  Lemma visits_in : Forall (fun v => in_comps (j_comps j) (pos_of v) /\ fst (pos_of v) < 4 /\ In (fst v) (sp_cs p))
    (visits_of (j_comps j) p (mcus (fst (read_dims j p)) (snd (read_dims j p)))).
  Proof.
    rewrite Forall_forall. intros v Hv. apply in_flat_map in Hv as (yx & Hm & Hv).
    destruct (visit_in yx v Hm Hv) as (si & iy & ix & Hs & H1 & H2 & H3 & H4 & ->). unfold pos_of, in_comps. cbn [fst snd].
    destruct S as (_ & _ & SB). rewrite Forall_forall in SB. pose proof (SB si Hs) as HB.
    pose proof (fr_comp _ F _ (comp_at_in _ _ HB)) as (C1 & C2 & C3 & C4 & C5). pose proof (fr_n _ F).
    split; [split; [exact HB|]|split; [lia|exact Hs]]. rewrite C5.
    set (c := comp_at (j_comps j) (cs_comp si)) in *. clearbody c.
    set (y := fst yx * (if sp_inter p then c_v c else 1) + iy) in *. set (x := snd yx * (if sp_inter p then c_h c else 1) + ix) in *. clearbody x y. nia.
  Qed.

  Lemma visits_nodup : NoDup (map pos_of (visits_of (j_comps j) p (mcus (fst (read_dims j p)) (snd (read_dims j p))))).
  Proof.
    unfold visits_of. rewrite map_flat_map.
    set (nby := fun ci => if sp_inter p then c_v (comp_at (j_comps j) ci) else 1).
    set (nbx := fun ci => if sp_inter p then c_h (comp_at (j_comps j) ci) else 1).
    set (wb := fun ci => c_wb (comp_at (j_comps j) ci)).
    assert (DEC : forall y x w : Z, 0 <= x < w -> (y * w + x) / w = y /\ (y * w + x) mod w = x).
    { intros y x w H. split; [rewrite Z.add_comm, Z.div_add, Z.div_small by lia; lia|rewrite Z.add_comm, Z.mod_add, Z.mod_small by lia; lia]. }
    assert (DEC2 : forall y n i : Z, 0 <= i < n -> (y * n + i) / n = y).
    { intros y n i H. rewrite Z.add_comm, Z.div_add, Z.div_small by lia. lia. }
    apply (NoDup_groups _ (fun a => a) (fun cb => (snd cb / wb (fst cb) / nby (fst cb), (snd cb mod wb (fst cb)) / nbx (fst cb)))).
    - intros yx cb Hm Hc. apply in_map_iff in Hc as (v & <- & Hv).
      destruct (visit_in yx v Hm Hv) as (si & iy & ix & Hs & H1 & H2 & H3 & H4 & ->). unfold pos_of, nby, nbx, wb. cbn [fst snd].
      destruct (DEC (fst yx * (if sp_inter p then c_v (comp_at (j_comps j) (cs_comp si)) else 1) + iy) _ _ H4) as [-> ->].
      rewrite !DEC2 by assumption. destruct yx; reflexivity.
    - rewrite map_id. unfold mcus.
      apply (NoDup_groups _ (fun a => a) fst); [|rewrite map_id; apply NoDup_iotaZ|].
      + intros y yx _ H. apply in_map_iff in H as (x & <- & _). reflexivity.
      + intros y _. apply FinFun.Injective_map_NoDup; [|apply NoDup_iotaZ]. intros a b H. injection H. auto.
    - intros yx Hm. unfold mcu_visits. rewrite map_flat_map.
      apply (NoDup_groups _ cs_comp fst); [|apply S|].
      + intros si cb _ H. apply in_map_iff in H as (v & <- & H). cbv zeta in H. apply in_flat_map in H as (iy & _ & H). apply in_map_iff in H as (ix & <- & _). reflexivity.
      + intros si Hs. cbv zeta. rewrite map_flat_map.
        apply (NoDup_groups _ (fun a => a) (fun cb => snd cb / wb (fst cb) - fst yx * nby (fst cb))); [|rewrite map_id; apply NoDup_iotaZ|].
        * intros iy cb Hi H. apply in_map_iff in H as (v & <- & H).
          assert (Hv : In v (mcu_visits (j_comps j) (sp_cs p) (sp_inter p) yx)).
          { unfold mcu_visits. apply in_flat_map. exists si. split; [exact Hs|]. cbv zeta. apply in_flat_map. exists iy. split; assumption. }
          apply in_map_iff in H as (ix & E & Hix). apply in_iotaZ in Hi, Hix.
          destruct (visit_in yx v Hm Hv) as (si' & iy' & ix' & Hs' & H1 & H2 & H3 & H4 & Ev).
          rewrite Ev in E. injection E as Es En. subst si'. rewrite Ev. unfold pos_of, nby, wb. cbn [fst snd]. rewrite <- En.
          assert (B : 0 <= snd yx * (if sp_inter p then c_h (comp_at (j_comps j) (cs_comp si)) else 1) + ix < c_wb (comp_at (j_comps j) (cs_comp si))).
          { destruct S as (_ & _ & SB). rewrite Forall_forall in SB. pose proof (fr_comp _ F _ (comp_at_in _ _ (SB si Hs))) as (C1 & C2 & C3 & C4 & C5).
            pose proof (mcu_in yx Hm) as [My Mx]. revert H4. unfold read_dims in Mx. destruct (sp_inter p) eqn:EI; cbn [snd] in Mx; [rewrite C3; nia|].
            replace ix' with ix by lia. auto. }
          destruct (DEC (fst yx * (if sp_inter p then c_v (comp_at (j_comps j) (cs_comp si)) else 1) + iy) _ _ B) as [-> _]. lia.
        * intros iy _. rewrite map_map. apply FinFun.Injective_map_NoDup; [|apply NoDup_iotaZ]. intros a b H. unfold pos_of in H. cbn [fst snd] in H. injection H. lia.
  Qed.

  Lemma visits_nonempty : Forall (fun m => mcu_visits (j_comps j) (sp_cs p) (sp_inter p) m <> []) (mcus (fst (read_dims j p)) (snd (read_dims j p))).
  Proof.
    rewrite Forall_forall. intros yx _. destruct S as (NE & _ & SB). destruct (sp_cs p) as [|si cs]; [congruence|]. apply Forall_inv in SB.
    pose proof (fr_comp _ F _ (comp_at_in _ _ SB)) as (C1 & C2 & _). unfold mcu_visits. cbn [flat_map]. cbv zeta.
    set (c := comp_at (j_comps j) (cs_comp si)) in *.
    intros E. apply app_eq_nil in E as [E _]. set (nby := if sp_inter p then c_v c else 1) in *. set (nbx := if sp_inter p then c_h c else 1) in *.
    assert (Hy : 1 <= nby) by (unfold nby; destruct (sp_inter p); lia). assert (Hx : 1 <= nbx) by (unfold nbx; destruct (sp_inter p); lia).
    assert (K : In (si, (fst yx * nby + 0) * c_wb c + (snd yx * nbx + 0)) []); [|exact K]. rewrite <- E.
    apply in_flat_map. exists 0. split; [apply in_iotaZ; lia|]. apply in_map_iff. exists 0. split; [reflexivity|]. apply in_iotaZ. lia.
  Qed.

  Lemma mcus_nonempty : mcus (fst (read_dims j p)) (snd (read_dims j p)) <> [].
  Proof.
    assert (H : 1 <= fst (read_dims j p) /\ 1 <= snd (read_dims j p)).
    { unfold read_dims. pose proof (fr_w _ F). pose proof (fr_h _ F). pose proof (fr_mh _ F). pose proof (fr_mv _ F).
      destruct (sp_inter p) eqn:EI; cbn [fst snd].
      - rewrite (fr_rows _ F), (fr_cols _ F). split; apply div_ceil_pos; lia.
      - destruct (SI eq_refl) as [s0 E0]. rewrite E0. destruct S as (_ & _ & SB). rewrite E0 in SB. apply Forall_inv in SB.
        pose proof (fr_comp _ F _ (comp_at_in _ _ SB)) as (C1 & C2 & _). split; apply div_ceil_pos; nia. }
    intros E. assert (K : In (0, 0) (mcus (fst (read_dims j p)) (snd (read_dims j p)))); [|rewrite E in K; exact K].
    unfold mcus. apply in_flat_map. exists 0. split; [apply in_iotaZ; lia|]. apply in_map_iff. exists 0. split; [reflexivity|]. apply in_iotaZ. lia.
  Qed.
End Geometry.
