(** C26, C27, C49: the header section. *)
From Verif Require Import Base CodesModel CodesProofs BitModel BitProofs Stream InternalsProofs4 HeaderModel HeaderProofs.

Lemma rdone_inj {S X} (x y : X) p q : @RDone S X x p = RDone y q -> x = y /\ p = q.
Proof. intros E. inversion E. split; reflexivity. Qed.

(** A picture the format can describe: see [grid_consistent] for the block grid. *)
Definition picture_ok (w h version : Z) (comps : samplings) (g : grid) : Prop :=
  1 <= w <= 65535 /\ 1 <= h <= 65535 /\ In version [0; 2; 4; 6] /\ (1 <= length comps <= 4)%nat /\
  Forall samp_ok comps /\ grid_consistent w h comps g.

(** C26.  For every such picture the encoder writes a header section, and the decoder
    reads back the same dimensions, version, factors and block grid, and stops exactly
    behind the section. *)
Theorem C26_header_round_trip : forall pre rest w h version comps g,
  bytes pre -> bytes rest -> picture_ok w h version comps g ->
  exists p out, encode_header w h version comps = Some p /\ encode_section 2 1 p = Some out /\ bytes out /\
    let D := pre ++ out ++ rest in
    brun D None decode_header (length pre) (length D) =
      RDone (HImage w h version (negb (Z.testbit version 1)) comps g) (length (pre ++ out)).
Proof.
  intros pre rest w h version comps g Hpre Hrest (Hw & Hh & Hv & Hl & Hc & Hg).
  assert (Rv : 0 <= version < 8) by (cbn in Hv; lia).
  assert (E : exists p, encode_header w h version comps = Some p).
  { unfold encode_header. replace (Z.land version 1) with 0 by (cbn in Hv; destruct Hv as [<-|[<-|[<-|[<-|[]]]]]; reflexivity).
    replace (version / 8) with 0 by (symmetry; apply Z.div_small; lia). cbn [Z.eqb andb negb].
    destruct (Z.eqb_spec w 0); [lia|]. destruct (Z.eqb_spec h 0); [lia|]. cbn [orb andb].
    destruct (Nat.eqb_spec (length comps) 0); [lia|]. destruct (Nat.ltb_spec 4 (length comps)); [lia|]. eexists. reflexivity. }
  destruct E as [p Ep]. destruct (encode_header_ok w h version comps p ltac:(lia) ltac:(lia) Rv Hc Ep) as (P1 & P2 & P3 & P4 & _).
  exists p. exists (section_marker 2 :: encode_base128_fix (Z.of_nat (length p)) 1 ++ p).
  split; [exact Ep|]. split.
  { unfold encode_section. rewrite Z.shiftr_div_pow2 by lia. rewrite Z.div_small; [reflexivity|]. change (2 ^ (7 * Z.of_nat 1)) with 128. lia. }
  assert (Bo : bytes (section_marker 2 :: encode_base128_fix (Z.of_nat (length p)) 1 ++ p)).
  { constructor; [unfold is_byte, section_marker; lia|]. apply bytes_app. split; [apply encode_base128_fix_bytes; lia|exact P4]. }
  split; [exact Bo|]. cbv zeta. set (out := section_marker 2 :: encode_base128_fix (Z.of_nat (length p)) 1 ++ p) in *.
  assert (BD : bytes (pre ++ out ++ rest)) by (rewrite !bytes_app; auto).
  pose proof (brun_bfull (pre ++ out ++ rest) BD decode_header (length pre) (out ++ rest) ltac:(apply skipn_app_exact; reflexivity) ltac:(rewrite app_length; lia)) as B.
  unfold out at 1 in B. rewrite <- app_comm_cons, <- app_assoc in B.
  pose proof (frame_type_bound comps ltac:(lia) Hc) as F.
  rewrite (decode_header_run p rest (length pre) w h _ _ P1 P3) in B by lia.
  rewrite (header_finale_image w h version comps g Hw Hh Hv Hl Hc) in B by (apply grid_unique; auto; intros Z; subst comps; cbn in Hl; lia).
  destruct B as (B & _ & _). rewrite B.
  replace (Z.land version 2 =? 0) with (negb (Z.testbit version 1)) by (cbn in Hv; destruct Hv as [<-|[<-|[<-|[<-|[]]]]]; reflexivity).
  f_equal. rewrite app_length. unfold out. cbn [length]. rewrite app_length, encode_base128_fix_length. lia.
Qed.
Print Assumptions C26_header_round_trip.

(** C26.  Whatever the bytes, an accepted header describes a valid picture
    ([header_valid]: dimensions 1..65535, 1..4 components, factors 1..15, a known
    version, and the smallest block grid that covers the picture), no matter how the
    bytes were delivered. *)
Theorem C26_accepted_header_is_valid : forall D pos avails x q, bytes D -> nondecreasing pos avails ->
  Forall (fun a => (a <= length D)%nat) avails ->
  calls (fun s a => brun D None (fst s) (snd s) a) (decode_header, pos) avails = RDone x q ->
  header_valid x /\ (pos < q <= length D)%nat.
Proof.
  intros D pos avails x q Hb Hm Hl. assert (Hs : ball0 header_valid decode_header) by exact decode_header_ball.
  assert (G : forall avails p pos, nondecreasing pos avails -> Forall (fun a => (a <= length D)%nat) avails -> ball0 header_valid p ->
    calls (fun s a => brun D None (fst s) (snd s) a) (p, pos) avails = RDone x q -> header_valid x /\ (pos <= q <= length D)%nat).
  { induction avails0 as [|a r IH]; intros p ps Hm' Hl' Hp E; cbn [calls] in E; [discriminate|]. destruct Hm' as [M1 M2].
    pose proof (Forall_inv Hl') as La; cbv beta in La. pose proof (Forall_inv_tail Hl') as Lr. cbn [fst snd] in E.
    pose proof (brun_ball0 header_valid D None a Hb La p ps M1 Hp) as B. pose proof (brun_pos D None a Hb La p ps M1) as P.
    destruct (brun D None p ps a) as [y t| |[p' ps']]; [|discriminate|].
    - inversion E; subst y t. split; [exact B|]. lia.
    - cbn [fst snd] in *. destruct (IH p' ps') as [I1 I2]; auto; [|split; [exact I1|lia]].
      apply (nondecreasing_weaken _ a); [lia|exact M2]. }
  intros E. destruct (G avails decode_header pos Hm Hl Hs E) as [G1 G2]. split; [exact G1|].
  assert (q <> pos); [|lia]. intros ->.
  assert (C : forall avails pos0, (pos <= pos0)%nat -> nondecreasing pos0 avails -> Forall (fun a => (a <= length D)%nat) avails ->
     calls (fun s a => brun D None (fst s) (snd s) a) (decode_header, pos0) avails <> RDone x pos).
  { clear E Hm Hl. induction avails0 as [|a r IH]; intros p0 H0 Hm Hl E; cbn [calls] in E; [discriminate|]. destruct Hm as [M1 M2].
    cbn [fst snd] in E. unfold decode_header at 1, read_tag in E. cbn [brun] in E. destruct (Nat.ltb_spec p0 a) as [L|L].
    - pose proof (Forall_inv Hl) as La; cbv beta in La.
      match type of E with context [brun D None ?p (S p0) a] => pose proof (brun_pos D None a Hb La p (S p0) ltac:(lia)) as P; pose proof (G r) as GG; destruct (brun D None p (S p0) a) as [y t| |[p' ps']] eqn:EB end.
      + injection E as -> ->. lia.
      + discriminate.
      + cbn [snd] in P. pose proof (brun_ball0 header_valid D None a Hb La decode_header p0 M1 Hs) as B.
        unfold decode_header at 1, read_tag in B. cbn [brun] in B. destruct (Nat.ltb_spec p0 a); [|lia]. rewrite EB in B. cbn [fst] in B.
        destruct (GG p' ps') as [_ I2]; auto; [|exact (Forall_inv_tail Hl)|lia].
        apply (nondecreasing_weaken _ a); [lia|exact M2].
    - apply (IH p0 H0); [|exact (Forall_inv_tail Hl)|exact E]. apply (nondecreasing_weaken _ a); [lia|exact M2]. }
  exact (C avails pos (le_n _) Hm Hl E).
Qed.
Print Assumptions C26_accepted_header_is_valid.

(** C26.  The way the bytes are delivered does not matter. *)
Theorem C26_header_piece_independent : forall D pos avails, bytes D -> nondecreasing pos avails ->
  Forall (fun a => (a <= length D)%nat) avails -> In (length D) avails -> forall x q,
  calls (fun s a => brun D None (fst s) (snd s) a) (decode_header, pos) avails = RDone x q <->
  brun D None decode_header pos (length D) = RDone x q.
Proof.
  intros D pos avails Hb Hm Hl Hin x q.
  apply (calls_complete (fun s a => brun D None (fst s) (snd s) a) (fun s a => (snd s <= a)%nat) (length D)) with (a := pos) (s := (decode_header, pos)); auto.
  intros [p ps] a Hi b [Hab Hbn]. cbn [fst snd] in *.
  pose proof (brun_stable D None b (length D) Hb Hbn (le_n _) p ps ltac:(lia)) as S. pose proof (brun_pos D None b Hb Hbn p ps ltac:(lia)) as P.
  destruct (brun D None p ps b) as [y t| |[p' ps']]; [exact S| |].
  - intros y t. apply S. exact I.
  - cbn [fst snd] in *. split; [lia|]. intros y t. rewrite S. reflexivity.
Qed.
Print Assumptions C26_header_piece_independent.

(** A 4:2:0 photograph of 1000 x 700 pixels. *)
Definition photo_comps : samplings := [(2, 2); (1, 1); (1, 1)].
Definition photo_grid : grid := mkGrid 2 2 44 63 [(126, 88); (63, 44); (63, 44)].
Example C26_case : picture_ok 1000 700 2 photo_comps photo_grid.
Proof.
  assert (F : Forall samp_ok photo_comps) by (unfold photo_comps, samp_ok; repeat (apply Forall_cons; [cbn [fst snd]; lia|]); constructor).
  unfold picture_ok. do 2 (split; [lia|]). split; [cbn; tauto|]. split; [cbn; lia|]. split; [exact F|].
  apply update_subsampling_ok; [lia|lia|discriminate|exact F|vm_compute; reflexivity].
Qed.

(** Finding.  "Only 3 bits are defined" is tested with a 32-bit mask on a 64-bit
    number (brunsli_decode.cc:1190): a header whose version field has undefined bits
    above bit 31 is accepted as if they were zero. *)
Theorem C26_reserved_version_bits_refuted : exists D g q,
  bytes D /\ (* the version field is 2^32 + 2, far above the defined 0..7 *)
  D = [18; 12; 8; 1; 16; 1; 24; 136; 128; 128; 128; 64; 32; 0] /\
  decode_base128 [136; 128; 128; 128; 64] = BOk ((2 ^ 32 + 2) * 4) [] /\
  brun D None decode_header 0 (length D) = RDone (HImage 1 1 2 false [(1, 1)] g) q.
Proof.
  eexists. eexists. eexists. split; [|split; [reflexivity|split; [vm_compute; reflexivity|vm_compute; reflexivity]]].
  repeat constructor; unfold is_byte; lia.
Qed.
Print Assumptions C26_reserved_version_bits_refuted.

(** * C27 *)

(** A header section made of arbitrary items. *)
Definition header_section (items : list hitem) : list Z :=
  let p := concat (map item_bytes items) in
  section_marker 2 :: encode_base128 (Z.of_nat (length p)) ++ p.

Lemma header_section_run items pos r : Forall item_ok items -> NoDup (map item_tag items) ->
  Z.of_nat (length (concat (map item_bytes items))) < 2 ^ 63 ->
  bfull decode_header pos (header_section items ++ r) =
  match header_finale (rev (map item_tag items)) (fold_left set_item items (repeat 0 16)) with
  | Some x => Some (x, (pos + length (header_section items))%nat, r) | None => None end.
Proof.
  intros Hok Hnd Hl. unfold header_section, decode_header. rewrite <- app_comm_cons, <- app_assoc.
  change (section_marker 2) with (if true then section_marker 2 else value_marker 2).
  rewrite bfull_tag by (try lia; reflexivity). change (negb (2 =? 2) || negb true) with false. cbv iota.
  rewrite bfull_base128 by lia. cbn [bfull].
  rewrite items_run; auto.
  - rewrite app_nil_r. destruct (header_finale _ _); [|reflexivity]. do 3 f_equal. cbn [length]. rewrite app_length. lia.
  - pose proof (tags_length (map item_tag items) Hnd) as T. rewrite map_length in T.
    specialize (T ltac:(apply Forall_forall; intros t It; apply in_map_iff in It; destruct It as (i & <- & Ii); rewrite Forall_forall in Hok; apply (Hok i Ii))). lia.
Qed.

(** C27 is false: a version/component field of the wrong wire type is skipped and the
    header accepted as if the field were 0; likewise the sampling field. *)
Theorem C27_wrong_wire_type_refuted : exists items x q,
  Forall item_ok items /\ NoDup (map item_tag items) /\
  In (HSec 3 [7]) items /\ In (HSec 4 []) items /\
  let D := header_section items in brun D None decode_header 0 (length D) = RDone x q /\
  exists w h g, x = HImage w h 0 true [(1, 1)] g.
Proof.
  exists [HVal 1 100; HVal 2 80; HSec 3 [7]; HSec 4 []]. eexists. eexists.
  split; [repeat (apply Forall_cons; [split; [cbn; lia|cbn; try (split; [lia|repeat constructor; unfold is_byte; lia]); lia]|]); constructor|].
  split; [cbn; repeat (apply NoDup_cons; [cbn; intuition discriminate|]); constructor|].
  split; [cbn; tauto|]. split; [cbn; tauto|]. cbv zeta. split; [vm_compute; reflexivity|]. eexists. eexists. eexists. reflexivity.
Qed.
Print Assumptions C27_wrong_wire_type_refuted.

(** What does hold: an image header whose width or height has the wrong wire type, or
    is missing, is never accepted; and a version or sampling field of the wrong wire
    type acts exactly like the number 0.  (Missing for C27: rejection of the latter,
    which the code does not do.) *)
Theorem C27_wrong_wire_type_partial : forall items pre rest x q,
  Forall item_ok items -> NoDup (map item_tag items) -> bytes pre -> bytes rest ->
  Z.of_nat (length (concat (map item_bytes items))) < 2 ^ 63 ->
  let D := pre ++ header_section items ++ rest in
  bytes D ->
  brun D None decode_header (length pre) (length D) = RDone x q ->
  In 3 (map item_tag items) /\
  match x with
  | HFallback => item_number items 3 / 4 = 1
  | HImage w h version legacy comps g =>
      (forall c, ~ In (HSec 1 c) items) /\ (forall c, ~ In (HSec 2 c) items) /\
      w = item_number items 1 /\ h = item_number items 2 /\
      version = (item_number items 3 / 4) mod 2 ^ 32 /\
      Z.of_nat (length comps) = item_number items 3 mod 4 + 1 /\
      comps = decode_samplings (length comps) (item_number items 4)
  end.
Proof.
  intros items pre rest x q Hok Hnd Hpre Hrest Hl D HD E.
  pose proof (brun_bfull D HD decode_header (length pre) (header_section items ++ rest) ltac:(apply skipn_app_exact; reflexivity) ltac:(unfold D; rewrite app_length; lia)) as B.
  rewrite header_section_run in B by assumption.
  destruct (header_finale (rev (map item_tag items)) (fold_left set_item items (repeat 0 16))) as [y|] eqn:F; [|exfalso; exact (B x q E)].
  destruct B as (B & _). rewrite B in E. apply rdone_inj in E. destruct E as [-> _]. clear B.
  assert (M : forall t, mem t (rev (map item_tag items)) = true -> In t (map item_tag items)).
  { intros t Ht. apply mem_In in Ht. apply in_rev in Ht. exact Ht. }
  assert (N : forall t, 1 <= t <= 15 -> In t (map item_tag items) -> nth (Z.to_nat t) (fold_left set_item items (repeat 0 16)) 0 = item_number items t).
  { intros t Ht It. rewrite set_items_number; auto; [|intros _; apply nth_repeat]. destruct (in_dec Z.eq_dec t (map item_tag items)); [reflexivity|contradiction]. }
  unfold header_finale in F.
  destruct (mem 3 (rev (map item_tag items))) eqn:M3; cbn [negb] in F; [|discriminate]. apply M in M3. split; [exact M3|].
  pose proof (N 3 ltac:(lia) M3) as N3; change (Z.to_nat 3) with 3%nat in N3; rewrite N3 in F. cbv zeta in F. rewrite Z.shiftr_div_pow2 in F by lia. change (2 ^ 2) with 4 in F.
  destruct (Z.eqb_spec (item_number items 3 / 4) 1).
  { apply f_equal with (f := fun o => match o with Some z => z | None => x end) in F. cbv iota beta in F. subst x. assumption. }
  destruct (negb _) in F; [discriminate|]. destruct (negb _) in F; [discriminate|].
  destruct (mem 1 (rev (map item_tag items))) eqn:M1; cbn [negb] in F; [|discriminate]. apply M in M1.
  destruct (mem 2 (rev (map item_tag items))) eqn:M2; cbn [negb] in F; [|discriminate]. apply M in M2.
  pose proof (N 1 ltac:(lia) M1) as N1; change (Z.to_nat 1) with 1%nat in N1. pose proof (N 2 ltac:(lia) M2) as N2; change (Z.to_nat 2) with 2%nat in N2. rewrite N1, N2 in F.
  match type of F with (if ?b then _ else _) = _ => destruct b eqn:Q1; [discriminate|] end.
  match type of F with (if ?b then _ else _) = _ => destruct b eqn:Q2; [discriminate|] end.
  destruct (mem 4 (rev (map item_tag items))) eqn:M4; cbn [negb] in F; [|discriminate]. apply M in M4.
  pose proof (N 4 ltac:(lia) M4) as N4; change (Z.to_nat 4) with 4%nat in N4; rewrite N4 in F.
  destruct (negb _) in F; [discriminate|].
  destruct (update_subsampling _ _ _) as [g|]; [|discriminate].
  apply f_equal with (f := fun o => match o with Some z => z | None => x end) in F. cbv iota beta in F. subst x.
  split; [intros c C; rewrite (item_number_sec items 1 c Hnd C) in Q1; discriminate|].
  split; [intros c C; rewrite (item_number_sec items 2 c Hnd C) in Q1; rewrite orb_true_r in Q1; discriminate|].
  split; [reflexivity|]. split; [reflexivity|]. split; [reflexivity|].
  destruct (decode_samplings_spec (Z.to_nat (Z.land (item_number items 3) 3 + 1)) (item_number items 4)) as [L _]. rewrite L.
  assert (R : Z.land (item_number items 3) 3 = item_number items 3 mod 4) by (change 3 with (Z.ones 2); rewrite Z.land_ones by lia; reflexivity).
  rewrite R in *. pose proof (Z.mod_pos_bound (item_number items 3) 4 ltac:(lia)). split; [lia|reflexivity].
Qed.
Print Assumptions C27_wrong_wire_type_partial.

Example C27_case : let D := header_section [HVal 1 100; HVal 2 80; HVal 3 8; HVal 4 0; HSec 9 [1; 2; 3]] in
  brun D None decode_header 0 (length D) = RDone (HImage 100 80 2 false [(1, 1)] (mkGrid 1 1 10 13 [(13, 10)])) (length D).
Proof. vm_compute. reflexivity. Qed.

(** * C49 *)

(** C49.  Every accepted image header bounds the blocks of each component by 2^21 and
    the bytes of all coefficient arrays (64 coefficients of two bytes per block, as
    allocated by WarmupMeta, brunsli_decode.cc:2246-2252) by 2^30; the block grid is
    the smallest whole number of MCUs that covers the picture. *)
Theorem C49_allocation_bounded : forall D pos avails w h version legacy comps g q,
  bytes D -> nondecreasing pos avails -> Forall (fun a => (a <= length D)%nat) avails ->
  calls (fun s a => brun D None (fst s) (snd s) a) (decode_header, pos) avails = RDone (HImage w h version legacy comps g) q ->
  Forall (fun b => fst b * snd b <= 2 ^ 21) (g_blocks g) /\
  sumZ (map (fun b => fst b * snd b * 64 * 2) (g_blocks g)) <= 2 ^ 30 /\
  length (g_blocks g) = length comps /\
  forall i, (i < length comps)%nat ->
    let c := nth i comps (1, 1) in let b := nth i (g_blocks g) (0, 0) in
    (* the blocks of the component cover its share of the picture, up to one MCU *)
    w * fst c <= 8 * fst b * g_max_h g < (w + 8 * g_max_h g) * fst c /\
    h * snd c <= 8 * snd b * g_max_v g < (h + 8 * g_max_v g) * snd c.
Proof.
  intros D pos avails w h version legacy comps g q Hb Hm Hl E.
  destruct (C26_accepted_header_is_valid D pos avails _ q Hb Hm Hl E) as [V _].
  destruct V as (Hw & Hh & _ & _ & Hn & Hc & G1 & G2 & G3 & G4 & G5 & G6 & G7).
  assert (L : length (g_blocks g) = length comps) by (rewrite G6, map_length; reflexivity).
  split; [eapply Forall_impl; [|exact G7]; cbv beta; intros; lia|]. split; [|split; [exact L|]].
  - assert (S : forall l : list (Z * Z), Forall (fun b => 1 <= fst b <= 8205 /\ 1 <= snd b <= 8205 /\ fst b * snd b <= 2 ^ 21) l ->
       sumZ (map (fun b => fst b * snd b * 64 * 2) l) <= Z.of_nat (length l) * 2 ^ 28).
    { induction l as [|b l IH]; intros F; [cbn; lia|]. cbn [map sumZ fold_right length]. fold (sumZ (map (fun b => fst b * snd b * 64 * 2) l)).
      specialize (IH (Forall_inv_tail F)). pose proof (Forall_inv F) as (_ & _ & B). change (2 ^ 28) with (2 ^ 21 * 64 * 2) in *. lia. }
    specialize (S (g_blocks g) G7). rewrite L in S. change (2 ^ 30) with (4 * 2 ^ 28). lia.
  - intros i Hi. cbv zeta. rewrite G6.
    rewrite (nth_indep _ (0, 0) ((fun c => (g_mcu_cols g * fst c, g_mcu_rows g * snd c)) (1, 1))) by (rewrite map_length; exact Hi).
    rewrite (map_nth (fun c => (g_mcu_cols g * fst c, g_mcu_rows g * snd c))).
    assert (I : In (nth i comps (1, 1)) comps) by (apply nth_In; exact Hi).
    rewrite Forall_forall in Hc. destruct (Hc _ I) as [C1 C2]. destruct (nth i comps (1, 1)) as [a b]. cbn [fst snd] in *. nia.
Qed.
Print Assumptions C49_allocation_bounded.

(** The limit is not vacuous: this picture has exactly 2^21 blocks. *)
Example C49_case : exists D g q, brun D None decode_header 0 (length D) = RDone (HImage 16384 8192 0 true [(1, 1)] g) q /\
  g_blocks g = [(2048, 1024)] /\ 2048 * 1024 = 2 ^ 21.
Proof.
  exists (header_section [HVal 1 16384; HVal 2 8192; HVal 3 0; HVal 4 0]). eexists. eexists.
  split; [vm_compute; reflexivity|]. split; reflexivity.
Qed.
