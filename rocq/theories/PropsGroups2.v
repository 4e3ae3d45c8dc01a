(** C61: the group decoder (c/experimental/groups.cc, DecodeGroups) on arbitrary bytes. *)
From Verif Require Import Base JpegModel JpegSpec HeaderModel HeaderProofs Stream MetaModel EntropyModel CoefModel CoefProofs DCProofs PropsCoef InternalsModel InternalsProofs Decoder DecodedSpec Machine ContainerModel PropsContainer DriverModel GrammarProofs ProgressModel ProgressProofs1 PropsMeta
  GroupModel GroupProofs1 GroupProofs2 GroupProofs3 GroupProofs5 GroupProofs7 GroupProofs8 PropsGroups.
From Coq Require Import Permutation.

(** Whatever the bytes, the order in which the tasks run does not change what is returned: neither the verdict nor the image. [od] and [oa] are the orders in which
    the DC and AC tasks are run. *)
Theorem C61_result_does_not_depend_on_the_schedule : forall (B : brotli) (D : list Z) (ac dc : nat) (od oa od' oa' : list nat),
  bytes D -> NoDup od -> NoDup oa -> Permutation od od' -> Permutation oa oa' ->
  decode_groups B D ac dc od oa = decode_groups B D ac dc od' oa'.
Proof. exact group_decoder_order. Qed.
Print Assumptions C61_result_does_not_depend_on_the_schedule.

(** Whatever the bytes, an image that is returned is well formed: its dimensions, tables, components and coefficients are within the limits of [decoded_ok]
    (DecodedSpec.v), the specification of what the sequential decoder returns. *)
Theorem C61_success_means_a_well_formed_image : forall (B : brotli) (D : list Z) (ac dc : nat) (od oa : list nat) (j : jpeg),
  bytes D -> NoDup od -> NoDup oa -> decode_groups B D ac dc od oa = GOk j -> decoded_ok j.
Proof. intros B D ac dc od oa j Hb Nd Na E. exact (group_decoder_well_formed B D ac dc od oa j Hb Na Nd E). Qed.
Print Assumptions C61_success_means_a_well_formed_image.

(** Whatever the bytes of the sections before the groups ([D]: the decoder has read them all and waits for the next section), no task leaves the arrays: every
    group has a window, the window lies within the component's blocks, no two groups share a block, and decoding the group's sections stays within the context map,
    the codes and the window's blocks.  Partial: for sections that bring the quantisation tables ([metas_of]) and the entropy codes ([pi_hist]), which DecodeGroups
    does not check. *)
Theorem C61_tasks_stay_in_their_arrays_partial : forall (B : brotli) (D : list Z) f met p pos ms sch cmap codes (ac dc : nat),
  bytes D -> x_run B D (XSig 0) (length D) = RMore (XTag f met p pos) -> metas_of p = Some ms -> pi_hist p = Some (sch, cmap, codes) ->
  dims_ok ac dc = true -> sampling_fits (layout_of (pi_grid p)) ac = true ->
  forall dim idx, dim = ac \/ dim = dc -> (idx < groups (layout_of (pi_grid p)) dim)%nat ->
  exists g, group_parts (layout_of (pi_grid p)) dim (psamp p) ms idx = Some g /\ length g = length ms /\
    (forall i m part, nth_error ms i = Some m -> nth_error g i = Some part ->
      length (snd part) = (cm_w (fst part) * cm_h (fst part))%nat /\ forall c, In c (snd part) -> (c < cm_w m * cm_h m)%nat) /\
    (forall idx' g', (idx' < groups (layout_of (pi_grid p)) dim)%nat -> idx' <> idx -> group_parts (layout_of (pi_grid p)) dim (psamp p) ms idx' = Some g' ->
      forall i part part' c, nth_error g i = Some part -> nth_error g' i = Some part' -> In c (snd part) -> In c (snd part') -> False) /\
    (forall d : EntropyModel.dstate, exists r, erun (decode_dc_prog cmap codes (map fst g)) d = Some r) /\
    (forall planes flags (d : EntropyModel.dstate), dc_planes_ok (map fst g) planes flags -> erun (decode_orders (length ms)) d <> None ->
      exists r, erun (decode_ac_prog cmap codes false (map fst g) flags planes) d = Some r).
Proof.
  intros B D f met p pos ms sch cmap codes ac dc Hb Ex Em Eh Hd Hs dim idx Hdim Hi. pose proof (x_run_pic B D f met p pos Hb Ex) as P.
  pose proof (pic_ready met p ms sch cmap codes ac dc P Em Eh Hd Hs) as R. set (L := layout_of (pi_grid p)) in *.
  assert (F : fits L dim) by (destruct Hdim as [-> | ->]; [exact (rd_ac _ _ _ _ _ _ R)|exact (rd_dc _ _ _ _ _ _ R)]).
  destruct (parts_in _ _ _ _ _ _ R dim idx F Hi) as (g & G & M & SC & MO & SZ). destruct (contexts_same _ _ SC) as [Nc Lg]. exists g. split; [exact G|].
  pose proof (comp_len _ _ _ _ _ _ R) as CL. pose proof (rd_pos _ _ _ _ _ _ R) as SP.
  assert (N : forall idx (g : list (cmeta * list nat)) i part, map snd g = gcells L dim (psamp p) idx -> nth_error g i = Some part -> exists s, nth_error (psamp p) i = Some s /\ snd part = cells_of L dim s idx).
  { intros k h i part Mh Eh'. pose proof (map_nth_error snd i h Eh') as Y. rewrite Mh in Y. destruct (nth_error (psamp p) i) as [s|] eqn:Es.
    - exists s. split; [reflexivity|]. rewrite (gcells_nth L dim (psamp p) k i s Es) in Y. injection Y as ->. reflexivity.
    - apply nth_error_None in Es. pose proof (nth_error_lt _ _ _ Y) as X. rewrite gcells_length in X. lia. }
  split; [rewrite map_length in Lg; exact Lg|]. split; [|split; [|split]].
  - intros i m part Emi Eg. destruct (N idx g i part M Eg) as (s & Es & ->). split.
    + pose proof (map_nth_error fst i g Eg) as Y. revert Es Y. clear - SZ. revert i. induction SZ as [|s0 m0 l l' Z0 Z IH]; intros [|k] Es Y; cbn [nth_error] in *; try discriminate; [injection Es as <-; injection Y as <-; exact Z0|eauto].
    + intros c Hc. rewrite (comp_nth _ _ _ _ _ _ R i s m Es Emi). exact (pa_in _ _ _ (GroupProofs2.part L dim F (psamp p) SP i s Es) idx c Hi Hc).
  - intros idx' g' Hi' Hne G' i part part' c E1 E2 H1 H2. destruct (parts_in _ _ _ _ _ _ R dim idx' F Hi') as (g2 & G2 & M2 & _). fold L in G2. rewrite G' in G2. apply some_inj in G2. subst g2.
    destruct (N idx g i part M E1) as (s & Es & Y1). destruct (N idx' g' i part' M2 E2) as (s' & Es' & Y2). rewrite Es in Es'. injection Es' as <-. rewrite Y1 in H1. rewrite Y2 in H2.
    apply Hne. exact (pa_one _ _ _ (GroupProofs2.part L dim F (psamp p) SP i s Es) idx' idx c Hi' Hi H2 H1).
  - intros d. apply C42_dc_decoding_is_memory_safe; [exact MO|]. rewrite Lg. exact (tables_small _ _ _ _ _ _ R).
  - intros planes flags d DP ND. apply C42_ac_decoding_is_memory_safe; [exact MO| | |exact DP|rewrite Lg; exact ND].
    + rewrite Lg. exact (layout_same _ _ SC _ (rd_lay _ _ _ _ _ _ R)).
    + rewrite Nc. exact (rd_tab _ _ _ _ _ _ R).
Qed.
Print Assumptions C61_tasks_stay_in_their_arrays_partial.

(** Without that check the claim is false: signature, header, internals, quantisation tables, two empty sections of unknown tags instead of metadata and
    histograms, then the DC and AC sections of the groups.  DecodeGroups accepts the leading sections and starts tasks that use codes that are not there. *)
Definition gx_no_codes : list Z := Eval vm_compute in
  match skip_sections 6 gx_out with Some ([sg; hd; it; md; qt; hs], rest) => sg ++ hd ++ it ++ qt ++ [82; 0] ++ [90; 0] ++ rest | _ => [] end.
Theorem C61_tasks_stay_in_their_arrays_refuted : forall B : brotli, exists D od oa,
  bytes D /\ Permutation od [0; 1]%nat /\ Permutation oa [0; 1; 2; 3; 4; 5]%nat /\ decode_groups B D 1 2 od oa = GUnchecked.
Proof.
  intros B. exists gx_no_codes, [0; 1]%nat, [0; 1; 2; 3; 4; 5]%nat. split.
  { assert (H : forallb is_byteb gx_no_codes = true) by (vm_compute; reflexivity). apply Forall_forall. rewrite forallb_forall in H. intros b Hb. specialize (H b Hb).
    apply andb_true_iff in H. destruct H as [H1 H2]. apply Z.leb_le in H1. apply Z.ltb_lt in H2. split; assumption. }
  split; [reflexivity|]. split; [reflexivity|]. vm_compute. reflexivity.
Qed.
Print Assumptions C61_tasks_stay_in_their_arrays_refuted.

(** * Non-vacuity *)

(** The stream of [C58_case] (six AC groups, two DC groups): two schedules, the same image. With a byte of the last section changed: the same failure. With its
    last byte cut off: the same failure. *)
Example C61_case :
  bytes gx_out /\ bytes gx_bad /\ NoDup [1; 0]%nat /\ NoDup [3; 5; 0; 2; 1; 4]%nat /\ decode_groups toy gx_out 1 2 [1; 0]%nat [3; 5; 0; 2; 1; 4]%nat = GOk gx_jpeg /\
  decode_groups toy gx_out 1 2 [0; 1]%nat [5; 4; 3; 2; 1; 0]%nat = GOk gx_jpeg /\
  decode_groups toy gx_bad 1 2 [1; 0]%nat [3; 5; 0; 2; 1; 4]%nat = GFail /\ decode_groups toy (removelast gx_out) 1 2 [1; 0]%nat [3; 5; 0; 2; 1; 4]%nat = GFail.
Proof.
  assert (X : forall l, forallb (fun b => (0 <=? b) && (b <=? 255)) l = true -> bytes l).
  { intros l H. apply Forall_forall. rewrite forallb_forall in H. intros b Hb. specialize (H b Hb). apply andb_true_iff in H. destruct H as [H1 H2]. apply Z.leb_le in H1, H2. unfold is_byte. lia. }
  split; [apply X; vm_compute; reflexivity|]. split; [apply X; vm_compute; reflexivity|].
  split; [repeat constructor; cbn [In]; lia|]. split; [repeat constructor; cbn [In]; lia|]. split; [vm_compute; reflexivity|]. split; [vm_compute; reflexivity|]. split; vm_compute; reflexivity.
Qed.

(** The sections of that stream before its groups leave the decoder waiting for the next section, with everything [C61_tasks_stay_in_their_arrays_partial] asks for. *)
Definition gx_head : list Z := match skip_sections 6 gx_out with Some (common, _) => concat common | None => [] end.
Example C61_case_head : exists f met p pos ms sch cmap codes,
  bytes gx_head /\ x_run toy gx_head (XSig 0) (length gx_head) = RMore (XTag f met p pos) /\ metas_of p = Some ms /\ pi_hist p = Some (sch, cmap, codes) /\
  dims_ok 1 2 = true /\ sampling_fits (layout_of (pi_grid p)) 1 = true /\ groups (layout_of (pi_grid p)) 1 = 6%nat.
Proof.
  assert (X : forall l, forallb (fun b => (0 <=? b) && (b <=? 255)) l = true -> bytes l).
  { intros l H. apply Forall_forall. rewrite forallb_forall in H. intros b Hb. specialize (H b Hb). apply andb_true_iff in H. destruct H as [H1 H2]. apply Z.leb_le in H1, H2. unfold is_byte. lia. }
  do 8 eexists. split; [apply X; vm_compute; reflexivity|]. split; [vm_compute; reflexivity|]. split; [vm_compute; reflexivity|]. split; [vm_compute; reflexivity|]. split; [vm_compute; reflexivity|]. split; vm_compute; reflexivity.
Qed.
