(** Groups: the whole stream. *)
From Verif Require Import Base JpegModel JpegSpec CodesModel CodesProofs Stream Machine HeaderModel HeaderProofs PropsHeader CtxTables EntropyModel EntropyProofs LehmerModel LehmerProofs HistModel HistProofs
  BitModel BitProofs HuffModel CMapModel HSecModel HSecProofs CoefModel CoefProofs DCProofs ACProofs PropsCoef ClusterModel PropsCluster QuantModel QuantProofs InternalsModel InternalsProofs MetaModel MetaProofs PropsMeta
  WordModel WordProofs ContainerModel Decoder DecoderProofs1 DecoderProofs2 ProgressModel Encoder EncoderProofs1 EncoderProofs2 EncoderProofs3 EncoderProofs4 GroupModel GroupProofs1 GroupProofs2 GroupProofs3 GroupProofs4 GroupProofs5.
From Coq Require Import Permutation.

(** Everything the encoder's tasks compute, without an order. *)
Section Plan.
  Context (j : jpeg) (ac dc : nat) (ms : list cmeta) (S : setup j ac dc ms).
  Definition gdc (i : nat) : list citem := dc_items (jlayout j) (jsamp j) ms (jplanes j) dc i.
  Definition gac (T : list (list bool)) (i : nat) : list item * list citem := ac_coded (jlayout j) (jsamp j) ms (jplanes j) ac T i.

  Record plan (T : list (list bool)) : Prop := {
    pl_sized : sized (jlayout j) (jsamp j) T;
    pl_coded : forall g, (g < groups (jlayout j) dc)%nat -> exists r, dc_coded (jlayout j) (jsamp j) ms (jplanes j) dc g = Some r;
    pl_flags : forall g, (g < groups (jlayout j) dc)%nat -> gather_all T (gcells (jlayout j) dc (jsamp j) g) = Some (dc_flags (jlayout j) (jsamp j) ms (jplanes j) dc g);
    pl_true : forall i fl p, nth_error T i = Some fl -> nth_error (jplanes j) i = Some p -> forall k b, nth_error fl k = Some true -> nth_error p k = Some b -> Forall (fun v => v = 0) (tl b) }.

  Lemma plan_exists od x : schedule od (groups (jlayout j) dc) ->
    run_tasks (enc_dc_task (jlayout j) dc (jsamp j) ms (jplanes j)) od (map (fun m => repeat false (cm_w m * cm_h m)) ms) = Some x -> exists T, plan T.
  Proof.
    intros Ho E. destruct S as [C Lay P AL Fa Fd _ _ _ _ _].
    assert (AC : forall g, (g < groups (jlayout j) dc)%nat -> exists r, dc_coded (jlayout j) (jsamp j) ms (jplanes j) dc g = Some r).
    { intros g Hg. destruct (run_tasks_each _ _ _ _ E g) as (s0 & r & s1 & Et); [apply (schedule_in _ _ _ Ho), Hg|]. eapply enc_dc_task_coded. exact Et. }
    destruct (flags_exist _ _ _ _ C Lay P AL dc Fd AC) as (T & ST & GT). exists T. constructor; try assumption.
    exact (flags_true _ _ _ _ C Lay P AL dc Fd AC T ST GT).
  Qed.
  Lemma plan_dc T od : plan T -> schedule od (groups (jlayout j) dc) ->
    run_tasks (enc_dc_task (jlayout j) dc (jsamp j) ms (jplanes j)) od (map (fun m => repeat false (cm_w m * cm_h m)) ms) = Some (map (fun i => (i, gdc i)) od, T).
  Proof. intros [A1 A2 A3 A4] Ho. destruct S as [C Lay P AL Fa Fd _ _ _ _ _]. apply (enc_dc_runs _ _ _ _ C Lay P AL dc Fd A2 T od); assumption. Qed.
  Lemma plan_ac T oa : plan T -> schedule oa (groups (jlayout j) ac) ->
    run_tasks (enc_ac_task (jlayout j) ac (jsamp j) ms (jplanes j) T) oa tt = Some (map (fun i => (i, gac T i)) oa, tt).
  Proof. intros [A1 A2 A3 A4] Ho. destruct S as [C Lay P AL Fa Fd _ _ _ _ _]. apply (enc_ac_runs _ _ _ _ C Lay P AL ac Fa T A1 A4 oa); assumption. Qed.
End Plan.

Lemma results_all {R} (res : nat -> R) od n : schedule od n -> results (seq 0 n) (map (fun i => (i, res i)) od) = Some (map res (seq 0 n)).
Proof. intros Ho. apply results_map. intros i Hi. apply (schedule_in _ _ _ Ho). apply in_seq in Hi. lia. Qed.

(** The rest of EncodeGroups, after the tasks. *)
Definition assemble_groups (O : oracle) (j : jpeg) (len : Z) (ms : list cmeta) (dcs : list (list citem)) (acs : list (list item * list citem)) : option (list Z) :=
  let n := length (j_comps j) in
  let? ec := entropy_codes (or_costs O) (concat dcs ++ concat (map snd acs)) (contexts_of (map cm_bits ms)) (0%nat :: map (fun m => Z.to_nat (cm_off m)) ms) in
  let? common := common_part O j (common_size j) (map cm_bits ms) (snd ec) (fst ec) in
  let? s7 := all_some (map (fun its => fitting_section 7 (dc_part_size n) (words_section (snd ec) (fst common) [] its)) dcs) in
  let? s8 := all_some (map (fun a => fitting_section 8 (ac_part_size n) (words_section (snd ec) (fst common) (fst a) (snd a))) acs) in
  let out := snd common ++ concat s7 ++ concat s8 in
  if len <? Z.of_nat (length out) then None else Some out.

Lemma encode_groups_inv O j len ac dc od oa out : jpeg_ok j -> schedule od (groups (jlayout j) dc) -> schedule oa (groups (jlayout j) ac) ->
  encode_groups O j len ac dc od oa = Some out ->
  dims_ok ac dc = true /\ sampling_fits (jlayout j) ac = true /\ exists ms T, group_metas j ac (Z.of_nat (length (j_comps j))) (j_comps j) = Some ms /\ setup j ac dc ms /\ plan j dc ms T /\
  assemble_groups O j len ms (map (gdc j dc ms) (seq 0 (groups (jlayout j) dc))) (map (gac j ac ms T) (seq 0 (groups (jlayout j) ac))) = Some out.
Proof.
  intros J Ho Ha E. unfold encode_groups in E. cbv zeta in E. fold (jlayout j) in E. destruct (dims_ok ac dc) eqn:Ed; [|discriminate]. cbn [negb] in E.
  destruct (sampling_fits (jlayout j) ac) eqn:Es; [|discriminate]. cbn [negb] in E. destruct (Nat.eqb_spec (length (j_comps j)) 0); [discriminate|].
  fold (jsamp j) in E. fold (jplanes j) in E. apply obind_some in E. destruct E as (ms & Ems & E).
  pose proof (group_setup j ac dc ms J Ed Es Ems) as SU. split; [reflexivity|]. split; [reflexivity|].
  apply obind_some in E. destruct E as (rd & Erd & E). destruct (plan_exists j ac dc ms SU od rd Ho Erd) as (T & PL). rewrite (plan_dc j ac dc ms SU T od PL Ho) in Erd. apply some_inj in Erd.
  rewrite <- Erd in E. cbn [fst snd] in E. rewrite (results_all _ _ _ Ho) in E. unfold obind at 1 in E. rewrite (plan_ac j ac dc ms SU T oa PL Ha) in E. unfold obind at 1 in E. cbn [fst snd] in E.
  rewrite (results_all _ _ _ Ha) in E. unfold obind at 1 in E. exists ms, T. split; [exact Ems|]. split; [exact SU|]. split; [exact PL|]. exact E.
Qed.
Lemma encode_groups_intro O j len ac dc od oa ms T : dims_ok ac dc = true -> sampling_fits (jlayout j) ac = true -> group_metas j ac (Z.of_nat (length (j_comps j))) (j_comps j) = Some ms ->
  setup j ac dc ms -> plan j dc ms T -> schedule od (groups (jlayout j) dc) -> schedule oa (groups (jlayout j) ac) ->
  encode_groups O j len ac dc od oa = assemble_groups O j len ms (map (gdc j dc ms) (seq 0 (groups (jlayout j) dc))) (map (gac j ac ms T) (seq 0 (groups (jlayout j) ac))).
Proof.
  intros Ed Es Ems SU PL Ho Ha. unfold encode_groups. cbv zeta. fold (jlayout j). rewrite Ed, Es. cbn [negb]. pose proof (su_n _ _ _ _ SU). pose proof (su_len _ _ _ _ SU).
  destruct (Nat.eqb_spec (length (j_comps j)) 0); [lia|]. fold (jsamp j) (jplanes j). rewrite Ems. unfold obind at 1. rewrite (plan_dc j ac dc ms SU T od PL Ho). unfold obind at 1. cbn [fst snd].
  rewrite (results_all _ _ _ Ho). unfold obind at 1. rewrite (plan_ac j ac dc ms SU T oa PL Ha). unfold obind at 1. cbn [fst snd]. rewrite (results_all _ _ _ Ha). unfold obind at 1. reflexivity.
Qed.

(** The order of the encoder's tasks does not matter. *)
Theorem encode_groups_order O j len ac dc od oa od' oa' : jpeg_ok j -> schedule od (groups (jlayout j) dc) -> schedule oa (groups (jlayout j) ac) ->
  schedule od' (groups (jlayout j) dc) -> schedule oa' (groups (jlayout j) ac) ->
  encode_groups O j len ac dc od oa = encode_groups O j len ac dc od' oa'.
Proof.
  intros J H1 H2 H3 H4.
  assert (X : forall od oa od' oa' out, schedule od (groups (jlayout j) dc) -> schedule oa (groups (jlayout j) ac) -> schedule od' (groups (jlayout j) dc) -> schedule oa' (groups (jlayout j) ac) ->
    encode_groups O j len ac dc od oa = Some out -> encode_groups O j len ac dc od' oa' = Some out).
  { clear od oa od' oa' H1 H2 H3 H4. intros od oa od' oa' out H1 H2 H3 H4 E. destruct (encode_groups_inv _ _ _ _ _ _ _ _ J H1 H2 E) as (Ed & Es & ms & T & Ems & SU & PL & A).
    rewrite (encode_groups_intro O j len ac dc od' oa' ms T Ed Es Ems SU PL H3 H4). exact A. }
  destruct (encode_groups O j len ac dc od oa) as [o|] eqn:E1.
  - symmetry. eapply (X od oa od' oa'); eassumption.
  - destruct (encode_groups O j len ac dc od' oa') as [o'|] eqn:E2; [|reflexivity]. rewrite (X _ _ _ _ _ H3 H4 H1 H2 E2) in E1. discriminate.
Qed.

Lemma all_some_nth {A B} (f : A -> option B) : forall l r, all_some (map f l) = Some r -> length r = length l /\ forall i a, nth_error l i = Some a -> exists b, nth_error r i = Some b /\ f a = Some b.
Proof.
  induction l as [|a l IH]; intros r E; cbn [map all_some] in E.
  - apply some_inj in E. subst r. split; [reflexivity|]. intros [|i] b; discriminate.
  - apply obind_some in E. destruct E as (b & Eb & E). apply obind_some in E. destruct E as (t & Et & E). apply some_inj in E. subst r. destruct (IH t Et) as [L N]. split; [cbn [length]; lia|].
    intros [|i] c Hc; cbn [nth_error] in *; [apply some_inj in Hc; subst c; eauto|eauto].
Qed.
Lemma fitting_inv tag len payload s : fitting_section tag len payload = Some s -> encode_section tag (base128_size len) payload = Some s.
Proof. unfold fitting_section. intros E. apply obind_some in E. destruct E as (x & Ex & E). destruct (_ <? _); [discriminate|]. congruence. Qed.
Lemma words_section_even cm tables head its : Z.even (Z.of_nat (length (words_section cm tables head its))) = true /\
  bytes_to_words (words_section cm tables head its) = encode_items (head ++ map (resolve (map Z.of_nat cm) tables) its).
Proof.
  unfold words_section. destruct (words_bytes_roundtrip _ (encode_items_words (head ++ map (resolve (map Z.of_nat cm) tables) its))) as (W1 & _ & W3).
  split; [rewrite W3, Nat2Z.inj_mul, Z.even_mul; reflexivity|exact W1].
Qed.
Lemma nth_seq_map {A} (f : nat -> A) n g : (g < n)%nat -> nth_error (map f (seq 0 n)) g = Some (f g).
Proof. intros H. rewrite nth_error_map. destruct (nth_error (seq 0 n) g) as [v|] eqn:E; [|apply nth_error_None in E; rewrite seq_length in E; lia]. apply nth_error_nth with (d := 0%nat) in E. rewrite seq_nth in E by exact H. subst v. reflexivity. Qed.

Lemma concat_le {A} (m : Z) : 0 <= m -> forall l : list (list A), (forall s, In s l -> Z.of_nat (length s) <= m) -> Z.of_nat (length (concat l)) <= Z.of_nat (length l) * m.
Proof. intros Hm. induction l as [|s l IH]; intros H; cbn [concat length]; [lia|]. rewrite app_length. pose proof (H s (or_introl eq_refl)). specialize (IH (fun x Hx => H x (or_intror Hx))). lia. Qed.
Lemma fitting_le tag len payload s : fitting_section tag len payload = Some s -> Z.of_nat (length s) <= len.
Proof. unfold fitting_section. intros E. apply obind_some in E. destruct E as (x & Ex & E). destruct (Z.ltb_spec len (Z.of_nat (length x))); [discriminate|]. injection E as <-. exact H. Qed.
Lemma words_section_bytes cm tables head its : bytes (words_section cm tables head its).
Proof. unfold words_section. apply (words_bytes_roundtrip _ (encode_items_words (head ++ map (resolve (map Z.of_nat cm) tables) its))). Qed.
Lemma common_part_le O j len sch cm cl t o6 : common_part O j len sch cm cl = Some (t, o6) -> Z.of_nat (length o6) <= len.
Proof.
  unfold common_part. intros E. repeat (apply obind_some in E; destruct E as (? & _ & E); cbv zeta in E).
  match type of E with (if Z.ltb ?a ?b then _ else _) = _ => destruct (Z.ltb_spec a b) as [|H]; [discriminate|] end. injection E as _ <-. exact H.
Qed.

Theorem groups_roundtrip B O j len ac dc od oa od' oa' out : jpeg_ok j -> brotli_inverse B (or_compress O) -> (forall i n, 0 <= ch_rnd (or_round O i) n <= 1024) ->
  common_size j < 2 ^ 63 -> aux_estimate j < 2 ^ 63 ->
  schedule od (groups (jlayout j) dc) -> schedule oa (groups (jlayout j) ac) -> schedule od' (groups (jlayout j) dc) -> schedule oa' (groups (jlayout j) ac) ->
  encode_groups O j len ac dc od oa = Some out ->
  Z.of_nat (length out) <= len /\ decode_groups B out ac dc od' oa' = GOk j /\ bytes out /\
  Z.of_nat (length out) <= common_size j + Z.of_nat (groups (jlayout j) dc) * dc_part_size (length (j_comps j)) + Z.of_nat (groups (jlayout j) ac) * ac_part_size (length (j_comps j)).
Proof.
  intros J HB HR Hlen Haux H1 H2 H3 H4 E.
  destruct (encode_groups_inv _ _ _ _ _ _ _ _ J H1 H2 E) as (Ed & Es & ms & T & Ems & SU & PL & A). clear E.
  unfold assemble_groups in A. set (n := length (j_comps j)) in *. set (nd := groups (jlayout j) dc) in *. set (na := groups (jlayout j) ac) in *.
  set (dcs := map (gdc j dc ms) (seq 0 nd)) in *. set (acs := map (gac j ac ms T) (seq 0 na)) in *. cbv zeta in A.
  apply obind_some in A. destruct A as (ec & Eec & A). apply obind_some in A. destruct A as ([tables o6] & Eco & A). cbn [fst snd] in A.
  apply obind_some in A. destruct A as (s7 & E7 & A). apply obind_some in A. destruct A as (s8 & E8 & A).
  destruct (Z.ltb_spec len (Z.of_nat (length (o6 ++ concat s7 ++ concat s8)))) as [|Hfit]; [discriminate|]. apply some_inj in A. rewrite <- A. split; [exact Hfit|].
  pose proof SU as [C Lay P AL Fa Fd Lms Hn FB Fq Mf]. pose proof PL as [ST AC GT TT].
  set (its := concat dcs ++ concat (map snd acs)) in *.
  assert (Sh : Forall (cshape (9 * num_contexts ms)) its).
  { unfold its. apply Forall_app. split; apply Forall_forall; intros it I; apply in_concat in I; destruct I as (l & Il & I).
    - unfold dcs in Il. apply in_map_iff in Il. destruct Il as (g & <- & Ig). apply in_seq in Ig. destruct (AC g ltac:(unfold nd in *; lia)) as (r & Er).
      destruct (dc_coded_spec _ _ _ _ C Lay P AL dc Fd g r ltac:(unfold nd in *; lia) Er) as (? & ? & _ & _ & _ & _ & Q & _).
      unfold gdc, dc_items in I. rewrite Er in I. rewrite Forall_forall in Q. apply Q, I.
    - unfold acs in Il. rewrite map_map in Il. apply in_map_iff in Il. destruct Il as (g & <- & Ig). apply in_seq in Ig.
      destruct (ac_coded_spec _ _ _ _ C Lay P AL ac Fa T ST TT g ltac:(unfold na in *; lia)) as (? & ? & ? & _ & _ & _ & _ & _ & Q & _).
      rewrite Forall_forall in Q. apply Q, I. }
  assert (Eh : exists h, encode_histogram_section (or_round O) (map cm_bits ms) (snd ec) (fst ec) = Some h).
  { unfold common_part in Eco. do 8 (apply obind_some in Eco; destruct Eco as (? & _ & Eco); cbv zeta in Eco). apply obind_some in Eco. destruct Eco as (h & Q & _). eauto. }
  destruct Eh as (h & Eh).
  destruct (histogram_sections O ms its ec h Lay FB ltac:(lia) HR Sh Eec Eh) as (codes & CH & Rd & CD & RA).
  set (cmap := map Z.of_nat (snd ec)) in *.
  destruct (x_run_common B O j (common_size j) ms (snd ec) (fst ec) tables codes o6 J HB Hlen Haux Lms Fq Mf Eco) as ((fs & Eh') & ss & p & q & Lss & Css & Yo & Kss & XR & Mo & Hi & Gr & Sa & Pj).
  { intros h' arena rest Eh' Ha. rewrite Eh in Eh'. apply some_inj in Eh'. subst h'. apply Rd, Ha. }
  rewrite Eh in Eh'. apply some_inj in Eh'. rewrite Eh' in RA. cbn [fst] in RA. clear Eh'.
  assert (KD : (1 <= base128_size (dc_part_size n) <= 9)%nat) by (apply base128_size_range; unfold dc_part_size; lia).
  assert (KA : (1 <= base128_size (ac_part_size n) <= 9)%nat) by (apply base128_size_range; unfold ac_part_size; lia).
  destruct (all_some_nth _ _ _ E7) as [L7 N7]. destruct (all_some_nth _ _ _ E8) as [L8 N8].
  assert (Ld : length dcs = nd) by (unfold dcs; rewrite map_length, seq_length; reflexivity).
  assert (La : length acs = na) by (unfold acs; rewrite map_length, seq_length; reflexivity).
  assert (K7 : forall s, In s s7 -> exists tag k payload, encode_section tag k payload = Some s /\ (1 <= k <= 9)%nat).
  { intros s I. apply In_nth_error in I. destruct I as (i & I). assert (i < length s7)%nat by (apply nth_error_Some; congruence).
    destruct (nth_error dcs i) as [d|] eqn:Ei; [|apply nth_error_None in Ei; lia]. destruct (N7 i d Ei) as (b & Eb & Q). apply fitting_inv in Q. assert (b = s) as -> by congruence. eauto. }
  assert (K8 : forall s, In s s8 -> exists tag k payload, encode_section tag k payload = Some s /\ (1 <= k <= 9)%nat).
  { intros s I. apply In_nth_error in I. destruct I as (i & I). assert (i < length s8)%nat by (apply nth_error_Some; congruence).
    destruct (nth_error acs i) as [d|] eqn:Ei; [|apply nth_error_None in Ei; lia]. destruct (N8 i d Ei) as (b & Eb & Q). apply fitting_inv in Q. assert (b = s) as -> by congruence. eauto. }
  assert (Id : forall g, (g < nd)%nat -> forall it, In it (gdc j dc ms g) -> In it its).
  { intros g Hg it I. unfold its. apply in_or_app. left. apply in_concat. exists (gdc j dc ms g). split; [|exact I]. unfold dcs. apply in_map, in_seq. lia. }
  assert (Ia : forall g, (g < na)%nat -> forall it, In it (snd (gac j ac ms T g)) -> In it its).
  { intros g Hg it I. unfold its. apply in_or_app. right. apply in_concat. exists (snd (gac j ac ms T g)). split; [|exact I]. unfold acs. apply in_map, in_map, in_seq. lia. }
  assert (Y7 : forall s, In s s7 -> bytes s /\ Z.of_nat (length s) <= dc_part_size n).
  { intros s I. apply In_nth_error in I. destruct I as (i & I). assert (i < length s7)%nat by (apply nth_error_Some; congruence).
    destruct (nth_error dcs i) as [d|] eqn:Ei; [|apply nth_error_None in Ei; lia]. destruct (N7 i d Ei) as (b & Eb & Q). assert (b = s) as -> by congruence. split; [|exact (fitting_le _ _ _ _ Q)].
    apply fitting_inv in Q. apply (encode_section_bytes _ _ _ _ Q); [lia|apply words_section_bytes]. }
  assert (Y8 : forall s, In s s8 -> bytes s /\ Z.of_nat (length s) <= ac_part_size n).
  { intros s I. apply In_nth_error in I. destruct I as (i & I). assert (i < length s8)%nat by (apply nth_error_Some; congruence).
    destruct (nth_error acs i) as [d|] eqn:Ei; [|apply nth_error_None in Ei; lia]. destruct (N8 i d Ei) as (b & Eb & Q). assert (b = s) as -> by congruence. split; [|exact (fitting_le _ _ _ _ Q)].
    apply fitting_inv in Q. apply (encode_section_bytes _ _ _ _ Q); [lia|apply words_section_bytes]. }
  assert (YC : forall ss : list (list Z), (forall s, In s ss -> bytes s) -> bytes (concat ss)).
  { clear. induction ss as [|s ss IH]; intros H; cbn [concat]; [constructor|]. apply bytes_app. split; [apply H; left; reflexivity|apply IH; intros; apply H; right; assumption]. }
  split; [|split; [apply bytes_app; split; [exact Yo|]; apply bytes_app; split; apply YC; intros s I; [apply Y7, I|apply Y8, I]|]].
  2:{ rewrite !app_length, !Nat2Z.inj_add. pose proof (common_part_le _ _ _ _ _ _ _ _ Eco).
      assert (0 <= dc_part_size n /\ 0 <= ac_part_size n) as [Z1 Z2] by (unfold dc_part_size, ac_part_size; lia).
      pose proof (concat_le (dc_part_size n) Z1 s7 (fun s I => proj2 (Y7 s I))). pose proof (concat_le (ac_part_size n) Z2 s8 (fun s I => proj2 (Y8 s I))). rewrite L7, Ld in *. rewrite L8, La in *. lia. }
  (* the decoder *)
  unfold decode_groups. rewrite Ed. cbn [negb]. pose proof (skip_sections_ok ss (concat s7 ++ concat s8) Kss) as SK. rewrite Lss in SK. rewrite <- Css at 1. rewrite SK. clear SK. unfold from_option at 1. cbv zeta. rewrite Css, XR.
  rewrite Mo, Hi. fold cmap. rewrite Gr, Sa. change (layout_of (grid_of j)) with (jlayout j). rewrite Es. cbn [negb]. rewrite map_map. cbn [fst snd]. change (map (fun x => (Z.to_nat (c_h x), Z.to_nat (c_v x))) (j_comps j)) with (jsamp j).
  change (groups (jlayout j) dc) with nd. change (groups (jlayout j) ac) with na.
  replace nd with (length s7) by lia. rewrite (skip_sections_ok s7 _ K7). unfold from_option at 1. replace na with (length s8) by lia.
  rewrite <- (app_nil_r (concat s8)), (skip_sections_ok s8 _ K8). unfold from_option at 1.
  destruct (dec_dc_runs _ _ _ _ C Lay P AL dc Fd AC T cmap codes s7 od' ST GT H3) as (rs1 & R1).
  { intros g Hg h0 s0 I. apply (CD h0 s0). apply (Id g Hg), I. }
  { intros g Hg. destruct (N7 g (gdc j dc ms g)) as (b & Eb & Q); [apply nth_seq_map, Hg|]. apply fitting_inv in Q. destruct (words_section_even (snd ec) tables [] (gdc j dc ms g)) as [Ev Wd].
    exists b. eexists. split; [exact Eb|]. split; [exact (group_payload_ok _ _ _ _ Q KD Ev)|]. rewrite Wd. fold cmap. cbn [app]. rewrite (RA (gdc j dc ms g) (Id g Hg)). reflexivity. }
  rewrite R1. unfold from_option at 1.
  destruct (dec_ac_runs _ _ _ _ C Lay P AL ac Fa T ST TT cmap codes s8 oa' H4) as (rs2 & R2).
  { intros g Hg h0 s0 I. apply (CD h0 s0). apply (Ia g Hg), I. }
  { intros g Hg. destruct (N8 g (gac j ac ms T g)) as (b & Eb & Q); [apply nth_seq_map, Hg|]. apply fitting_inv in Q. destruct (words_section_even (snd ec) tables (fst (gac j ac ms T g)) (snd (gac j ac ms T g))) as [Ev Wd].
    exists b. eexists. split; [exact Eb|]. split; [exact (group_payload_ok _ _ _ _ Q KA Ev)|]. rewrite Wd. fold cmap. rewrite (RA (snd (gac j ac ms T g)) (Ia g Hg)). reflexivity. }
  rewrite R2. unfold from_option at 1. rewrite Pj. reflexivity.
Qed.
