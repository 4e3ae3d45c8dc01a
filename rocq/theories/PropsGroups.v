(** C58, C59: coding in groups by parallel tasks (c/experimental/groups.cc). *)
From Verif Require Import Base JpegModel JpegSpec HeaderModel HeaderProofs PropsHeader MetaModel PropsMeta HSecModel EntropyModel CoefModel ClusterModel PropsCluster InternalsModel InternalsProofs2 CoefProofs Decoder Encoder PropsContainer CountProofs PropsSize
  GroupModel GroupProofs1 GroupProofs2 GroupProofs3 GroupProofs5 GroupProofs6 StatusModel StatusProofs.
From Coq Require Import Permutation.

(** * C58 *)

(** Every block of every component belongs to exactly one group: position ([x], [y]) of a component with sampling
    factors [s], in a picture of [ly_cols L] times [ly_rows L] MCUs, for groups of [dim] times [dim] blocks. *)
Theorem C58_each_block_in_one_group : forall (L : layout) (dim : nat) (s : nat * nat) (x y : nat),
  (1 <= dim)%nat -> (1 <= ly_max_h L)%nat -> (1 <= ly_max_v L)%nat -> (dim mod ly_max_h L = 0)%nat -> (dim mod ly_max_v L = 0)%nat ->
  (1 <= fst s)%nat -> (1 <= snd s)%nat -> (x < ly_cols L * fst s)%nat -> (y < ly_rows L * snd s)%nat ->
  exists! idx, (idx < groups L dim)%nat /\
    exists w, group_window L dim idx s = Some w /\ (wn_x w <= x < wn_x w + wn_w w)%nat /\ (wn_y w <= y < wn_y w + wn_h w)%nat /\
      (wn_x w + wn_w w <= ly_cols L * fst s)%nat /\ (wn_y w + wn_h w <= ly_rows L * snd s)%nat.
Proof.
  intros L dim s x y Hd Hh Hv Dh Dv S1 S2 Hx Hy.
  assert (F : fits L dim) by (constructor; try assumption; destruct (ly_cols L), (ly_rows L); lia).
  pose proof (windows_partition L dim F s (conj S1 S2)) as P. set (W := (ly_cols L * fst s)%nat) in *.
  assert (Q : forall idx, (idx < groups L dim)%nat -> exists w, group_window L dim idx s = Some w /\ (wn_x w + wn_w w <= W)%nat /\ (wn_y w + wn_h w <= ly_rows L * snd s)%nat /\
    (In (y * W + x)%nat (cells_of L dim s idx) <-> (wn_x w <= x < wn_x w + wn_w w)%nat /\ (wn_y w <= y < wn_y w + wn_h w)%nat)).
  { intros idx Hi. destruct (window_some L dim F s (conj S1 S2) idx Hi) as (qh & qv & a & b & _ & _ & _ & _ & _ & _ & X & Y & E). eexists. split; [exact E|]. cbn [wn_x wn_y wn_w wn_h].
    assert (B1 : (a * (fst s * qh) + fst s * (Nat.min (a * qh + qh) (ly_cols L) - a * qh) <= W)%nat) by (unfold W; pose proof (Nat.le_min_r (a * qh + qh) (ly_cols L)); nia).
    assert (B2 : (b * (snd s * qv) + snd s * (Nat.min (b * qv + qv) (ly_rows L) - b * qv) <= ly_rows L * snd s)%nat) by (pose proof (Nat.le_min_r (b * qv + qv) (ly_rows L)); nia).
    split; [exact B1|]. split; [exact B2|]. unfold cells_of. rewrite E. fold W. unfold window_cells. cbn [wn_x wn_y wn_w wn_h].
    revert B1 B2. generalize (a * (fst s * qh))%nat (fst s * (Nat.min (a * qh + qh) (ly_cols L) - a * qh))%nat (b * (snd s * qv))%nat (snd s * (Nat.min (b * qv + qv) (ly_rows L) - b * qv))%nat.
    intros fx w fy h B1 B2. clearbody W. clear - Hx B1. rewrite in_flat_map. split.
    - intros (r & Hr & Hc). apply in_map_iff in Hc. destruct Hc as (k & Ek & Hk). apply in_seq in Hr, Hk.
      destruct (index_parts x y W Hx) as [P1 P2]. destruct (index_parts (fx + k) (fy + r) W ltac:(lia)) as [P3 P4]. rewrite Nat.add_assoc, Ek in P3, P4. rewrite P1 in P3. rewrite P2 in P4. lia.
    - intros [H1 H2]. exists (y - fy)%nat. split; [apply in_seq; lia|]. apply in_map_iff. exists (x - fx)%nat. split; [|apply in_seq; lia]. replace (fy + (y - fy))%nat with y by lia. lia. }
  assert (C : (y * W + x < W * (ly_rows L * snd s))%nat) by (apply index_lt; assumption).
  destruct (pa_some _ _ _ P _ C) as (idx & Hi & Ic). exists idx. split.
  - split; [exact Hi|]. destruct (Q idx Hi) as (w & E & B1 & B2 & I). exists w. split; [exact E|]. apply I in Ic. tauto.
  - intros idx' [Hi' (w' & E' & X' & Y' & _)]. destruct (Q idx' Hi') as (w & E & B1 & B2 & I). rewrite E in E'. injection E' as <-.
    apply (pa_one _ _ _ P idx idx' (y * W + x)%nat Hi Hi' Ic). apply I. auto.
Qed.
Print Assumptions C58_each_block_in_one_group.

(** EncodeGroups writes the same bytes (or fails alike) whatever the order in which the executor runs the tasks. *)
Theorem C58_output_does_not_depend_on_the_schedule :
  forall (O : oracle) (j : jpeg) (len : Z) (ac_dim dc_dim : nat) (dc1 ac1 dc2 ac2 : list nat),
    jpeg_ok j ->
    Permutation dc1 (seq 0 (groups (jlayout j) dc_dim)) -> Permutation ac1 (seq 0 (groups (jlayout j) ac_dim)) ->
    Permutation dc2 (seq 0 (groups (jlayout j) dc_dim)) -> Permutation ac2 (seq 0 (groups (jlayout j) ac_dim)) ->
    encode_groups O j len ac_dim dc_dim dc1 ac1 = encode_groups O j len ac_dim dc_dim dc2 ac2.
Proof. intros. apply encode_groups_order; assumption. Qed.
Print Assumptions C58_output_does_not_depend_on_the_schedule.

(** DecodeGroups on the bytes that EncodeGroups produced gives back the same JPEGData, field by field, for all group sizes and for
    every order of the tasks on either side. *)
Theorem C58_groups_round_trip :
  forall (B : brotli) (O : oracle) (j : jpeg) (len : Z) (ac_dim dc_dim : nat) (dc1 ac1 dc2 ac2 : list nat) (out : list Z),
    jpeg_ok j -> brotli_inverse B (or_compress O) -> (forall i n, 0 <= ch_rnd (or_round O i) n <= 1024) ->
    common_size j < 2 ^ 63 -> aux_estimate j < 2 ^ 63 ->
    Permutation dc1 (seq 0 (groups (jlayout j) dc_dim)) -> Permutation ac1 (seq 0 (groups (jlayout j) ac_dim)) ->
    Permutation dc2 (seq 0 (groups (jlayout j) dc_dim)) -> Permutation ac2 (seq 0 (groups (jlayout j) ac_dim)) ->
    encode_groups O j len ac_dim dc_dim dc1 ac1 = Some out ->
    Z.of_nat (length out) <= len /\ decode_groups B out ac_dim dc_dim dc2 ac2 = GOk j.
Proof. intros B O j len ac dc d1 a1 d2 a2 out. intros. destruct (groups_roundtrip B O j len ac dc d1 a1 d2 a2 out) as (R1 & R2 & _); auto. Qed.
Print Assumptions C58_groups_round_trip.

(** A picture of 24 x 16 pixels, three by two blocks: two DC groups (the second one is narrower) and six AC groups. *)
Definition gx_block (k : Z) : block := map (fun i => if Z.of_nat i =? 0 then 7 * k else if Z.of_nat i <? k + 2 then (k - 2) * Z.of_nat i else 0) (seq 0 64).
Definition gx_jpeg : jpeg :=
  let j := noise_base in
  mkJpeg 24 16 (j_version j) 1 1 2 3 (j_restart j) (j_app j) (j_com j) (j_quant j) (j_huff j)
    [mkComp (c_id (nth 0 (j_comps j) (mkComp 0 0 0 0 0 0 []))) 1 1 (c_quant (nth 0 (j_comps j) (mkComp 0 0 0 0 0 0 []))) 3 2 (map gx_block [0; 1; 2; 3; 4; 5])]
    (j_scans j) (j_markers j) (j_inter j) (j_tail j) (j_zero_pad j) (j_padding j).
Lemma gx_ok : jpeg_ok gx_jpeg.
Proof.
  pose proof noise_base_ok as B. assert (E : internals_of gx_jpeg = internals_of noise_base) by (vm_compute; reflexivity).
  constructor.
  - change (picture_ok 24 16 (j_version noise_base) [(1, 1)] (mkGrid 1 1 2 3 [(3, 2)])).
    split; [lia|]. split; [lia|]. split; [apply (jo_picture _ B)|]. split; [cbn [length]; lia|]. split; [constructor; [unfold samp_ok; cbn [fst snd]; lia|constructor]|].
    unfold grid_consistent. cbn [g_max_h g_max_v g_mcu_rows g_mcu_cols g_blocks map fst snd]. split; [lia|]. split; [lia|]. split; [intros c [<-|[]]; cbn [fst snd]; lia|].
    split; [exists (1, 1); split; [left; reflexivity|reflexivity]|]. split; [exists (1, 1); split; [left; reflexivity|reflexivity]|]. split; [reflexivity|].
    constructor; [cbn [fst snd]; change (2 ^ 21) with 2097152; lia|constructor].
  - pose proof (jo_internals _ B) as H. rewrite E. unfold internals_ok in *. cbn [gx_jpeg j_width j_height]. intuition lia.
  - exact (jo_inter _ B).
  - exact (jo_app _ B).
  - exact (jo_com _ B).
  - exact (jo_tail _ B).
  - exact (jo_size _ B).
  - exact (jo_quant _ B).
  - unfold gx_jpeg. cbv zeta. cbn [j_comps]. constructor; [|constructor]. cbn [c_coeffs c_wb c_hb]. split; [reflexivity|].
    assert (X : forallb (fun b => (length b =? 64)%nat && forallb (fun v => (-2000 <=? v) && (v <=? 2000)) b) (map gx_block [0; 1; 2; 3; 4; 5]) = true) by (vm_compute; reflexivity).
    rewrite forallb_forall in X. apply Forall_forall. intros b Ib. specialize (X b Ib). apply andb_true_iff in X. destruct X as [X1 X2]. apply Nat.eqb_eq in X1. rewrite forallb_forall in X2. split.
    + split; [exact X1|]. apply Forall_forall. intros v Iv. specialize (X2 v Iv). unfold DCProofs.i16. lia.
    + intros v Iv. assert (Ivb : In v b) by (destruct b; [destruct Iv|right; exact Iv]). specialize (X2 v Ivb). lia.
Qed.

Definition gx_clusters (ac dc : nat) : list (list Z) :=
  let j := gx_jpeg in
  match group_metas j ac 1 (j_comps j) with
  | Some ms =>
      match run_tasks (enc_dc_task (jlayout j) dc (jsamp j) ms (jplanes j)) (seq 0 (groups (jlayout j) dc)) (map (fun m => repeat false (cm_w m * cm_h m)) ms) with
      | Some d =>
          match run_tasks (enc_ac_task (jlayout j) ac (jsamp j) ms (jplanes j) (snd d)) (seq 0 (groups (jlayout j) ac)) tt with
          | Some a => match entropy_codes merge_all (concat (map snd (fst d)) ++ concat (map (fun r => snd (snd r)) (fst a))) (contexts_of (map cm_bits ms)) (0%nat :: map (fun m => Z.to_nat (cm_off m)) ms) with Some ec => fst ec | None => [] end
          | None => []
          end
      | None => []
      end
  | None => []
  end.
Definition gx_table : list (list Z) := Eval vm_compute in gx_clusters 1 2.
Definition gx_oracle : oracle := mkOracle merge_all (fun i => ex_round (nth i gx_table [])) toy_compress.
Definition gx_out : list Z :=
  Eval vm_compute in match encode_groups gx_oracle gx_jpeg 100000 1 2 [0; 1]%nat [0; 1; 2; 3; 4; 5]%nat with Some o => o | None => [] end.

Example C58_case :
  jpeg_ok gx_jpeg /\ brotli_inverse toy (or_compress gx_oracle) /\ (forall i n, 0 <= ch_rnd (or_round gx_oracle i) n <= 1024) /\ common_size gx_jpeg < 2 ^ 63 /\ aux_estimate gx_jpeg < 2 ^ 63 /\
  groups (jlayout gx_jpeg) 2 = 2%nat /\ groups (jlayout gx_jpeg) 1 = 6%nat /\
  encode_groups gx_oracle gx_jpeg 100000 1 2 [0; 1]%nat [0; 1; 2; 3; 4; 5]%nat = Some gx_out /\ (100 < length gx_out)%nat /\
  encode_groups gx_oracle gx_jpeg 100000 1 2 [1; 0]%nat [4; 1; 5; 0; 3; 2]%nat = Some gx_out /\
  decode_groups toy gx_out 1 2 [1; 0]%nat [3; 5; 0; 2; 1; 4]%nat = GOk gx_jpeg.
Proof.
  split; [exact gx_ok|]. split; [apply toy_is_inverse|]. split.
  { intros i n. cbn [gx_oracle or_round]. apply ex_round_range. assert (X : forallb (forallb (fun v => 0 <=? v)) gx_table = true) by (vm_compute; reflexivity). rewrite forallb_forall in X.
    destruct (le_lt_dec (length gx_table) i) as [L|L]; [rewrite nth_overflow by exact L; constructor|]. apply Forall_forall. intros v I. specialize (X _ (nth_In _ [] L)). rewrite forallb_forall in X. specialize (X _ I). apply Z.leb_le. exact X. }
  split; [apply Z.ltb_lt; vm_compute; reflexivity|]. split; [apply Z.ltb_lt; vm_compute; reflexivity|]. split; [vm_compute; reflexivity|]. split; [vm_compute; reflexivity|].
  split; [vm_compute; reflexivity|]. split; [apply Nat.ltb_lt; vm_compute; reflexivity|]. split; vm_compute; reflexivity.
Qed.

(** A component with half the width, in a picture of three by two MCUs of 2 x 1 blocks, groups of 2 x 2 blocks: its block (1, 1) is in group 1. *)
Example C58_case_window : let L := mkLayout 2 1 3 2 in
  groups L 2 = 3%nat /\ group_window L 2 1 (1, 1)%nat = Some (mkWin 1 0 1 2) /\ group_window L 2 1 (2, 1)%nat = Some (mkWin 2 0 2 2).
Proof. vm_compute. auto. Qed.

(** * C59 *)

(** What a caller relies on: when all tasks are done, DecodeGroups reports a failure (groups.cc:490, 533) exactly if some group could not be
    decoded.  [result i] tells whether ProcessJpeg succeeds on group [i]. *)
Definition reports_failure (result : nat -> bool) (n : nat) (s : shared) : Prop := sh_failed s = true <-> exists i, (i < n)%nat /\ result i = false.

(** It does so if the tasks run one after the other, in any order: SequentialExecutor. *)
Theorem C59_failure_is_reported_sequentially : forall (result : nat -> bool) (n : nat) (order : list nat), Permutation order (seq 0 n) ->
  exists s, whole_tasks result order (sh_start n) = Some s /\ all_done s /\ reports_failure result n s.
Proof.
  intros result n order P. assert (ND : NoDup order) by (eapply Permutation_NoDup; [symmetry; exact P|apply seq_NoDup]).
  assert (IO : forall i, In i order <-> (i < n)%nat). { intros i. split; intros I; [apply (Permutation_in _ P), in_seq in I; lia|apply (Permutation_in _ (Permutation_sym P)), in_seq; lia]. }
  assert (Z0 : forall i, (i < n)%nat -> nth_error (repeat TLoad n) i = Some TLoad).
  { intros i Hi. destruct (nth_error (repeat TLoad n) i) as [p|] eqn:E; [|apply nth_error_None in E; rewrite repeat_length in E; lia]. apply nth_error_In, repeat_spec in E. subst p. reflexivity. }
  destruct (whole_tasks_ok result order (sh_start n) ND) as (s & E & F & D & Ot); [intros i Hi; apply Z0, IO, Hi|]. exists s. split; [exact E|]. split.
  - apply Forall_forall. intros p I. apply In_nth_error in I. destruct I as (i & I). destruct (lt_dec i n) as [L|L]; [rewrite (D i ltac:(apply IO, L)) in I; congruence|].
    rewrite Ot in I by (intros X; apply L, IO, X). cbn [sh_start sh_tasks] in I. assert (nth_error (repeat TLoad n) i <> None) as X by congruence. apply nth_error_Some in X. rewrite repeat_length in X. lia.
  - unfold reports_failure. rewrite F. cbn [sh_start sh_failed orb]. rewrite existsb_exists. split.
    + intros (i & I & R). exists i. split; [apply IO, I|]. destruct (result i); [discriminate|reflexivity].
    + intros (i & L & R). exists i. split; [apply IO, L|]. rewrite R. reflexivity.
Qed.
Print Assumptions C59_failure_is_reported_sequentially.

(** With tasks that run at the same time success stays a success ... *)
Theorem C59_success_is_reported_partial : forall (result : nat -> bool) (n : nat) (steps : list nat) (s : shared),
  (forall i, (i < n)%nat -> result i = true) -> task_steps result steps (sh_start n) = Some s -> sh_failed s = false.
Proof.
  intros result n steps s R E. eapply (success_steps result steps (sh_start n)); try exact E; cbn [sh_start sh_tasks sh_failed sh_status]; try rewrite repeat_length; auto; try discriminate.
  intros i Hi. apply nth_error_In, repeat_spec in Hi. discriminate.
Qed.
Print Assumptions C59_success_is_reported_partial.

(** ... but C59 is false of the code: for any number of tasks above one and any set of failing tasks that is not empty and is not everything there are
    interleavings in which all tasks finish and DecodeGroups returns true.  [status] is one variable for all tasks, and a task may find there what another one wrote. *)
Theorem C59_failure_is_reported_refuted : forall (result : nat -> bool) (n : nat) (good : nat), (good < n)%nat -> result good = true ->
  (exists bad, (bad < n)%nat /\ result bad = false) ->
  exists steps s, task_steps result steps (sh_start n) = Some s /\ all_done s /\ ~ reports_failure result n s.
Proof.
  intros result n good Hg Rg Hb.
  (* all load; all but [good] assign; [good] assigns; all test *)
  set (others := filter (fun i => negb (i =? good)%nat) (seq 0 n)).
  assert (St : forall l s, sh_failed s = false -> NoDup l -> (forall i, In i l -> nth_error (sh_tasks s) i = Some TLoad) ->
    exists t, task_steps result l s = Some t /\ sh_failed t = false /\ (forall i, In i l -> nth_error (sh_tasks t) i = Some TAssign) /\ (forall i, ~ In i l -> nth_error (sh_tasks t) i = nth_error (sh_tasks s) i)).
  { induction l as [|i l IH]; intros s F ND H; [exists s; cbn [task_steps]; repeat split; auto; intros i []|]. inversion ND as [|? ? Ni ND']; subst.
    assert (Ei := H i (or_introl eq_refl)). assert (Li : (i < length (sh_tasks s))%nat) by (apply nth_error_Some; congruence). cbn [task_steps]. unfold task_step at 1. rewrite Ei. unfold obind at 1 2. rewrite F.
    destruct (IH (mkShared (sh_status s) false (upd (sh_tasks s) i TAssign)) eq_refl ND') as (t & Et & Ft & At & Ot).
    { intros k Hk. cbn [sh_tasks]. rewrite nth_error_upd_other by (intros ->; contradiction). apply H. right. exact Hk. }
    cbn [sh_tasks] in Ot. exists t. split; [exact Et|]. split; [exact Ft|]. split.
    - intros k [<-|Hk]; [rewrite Ot by exact Ni; apply nth_error_upd_same, Li|apply At, Hk].
    - intros k Hk. rewrite Ot by (intros X; apply Hk; right; exact X). apply nth_error_upd_other. intros ->. apply Hk. left. reflexivity. }
  assert (Sa : forall l s, sh_failed s = false -> NoDup l -> (forall i, In i l -> nth_error (sh_tasks s) i = Some TAssign) ->
    exists t, task_steps result l s = Some t /\ sh_failed t = false /\ (forall i, In i l -> nth_error (sh_tasks t) i = Some TTest) /\ (forall i, ~ In i l -> nth_error (sh_tasks t) i = nth_error (sh_tasks s) i)).
  { induction l as [|i l IH]; intros s F ND H; [exists s; cbn [task_steps]; repeat split; auto; intros i []|]. inversion ND as [|? ? Ni ND']; subst.
    assert (Ei := H i (or_introl eq_refl)). assert (Li : (i < length (sh_tasks s))%nat) by (apply nth_error_Some; congruence). cbn [task_steps]. unfold task_step at 1. rewrite Ei. unfold obind at 1 2. rewrite F.
    destruct (IH (mkShared (Some (result i)) false (upd (sh_tasks s) i TTest)) eq_refl ND') as (t & Et & Ft & At & Ot).
    { intros k Hk. cbn [sh_tasks]. rewrite nth_error_upd_other by (intros ->; contradiction). apply H. right. exact Hk. }
    cbn [sh_tasks] in Ot. exists t. split; [exact Et|]. split; [exact Ft|]. split.
    - intros k [<-|Hk]; [rewrite Ot by exact Ni; apply nth_error_upd_same, Li|apply At, Hk].
    - intros k Hk. rewrite Ot by (intros X; apply Hk; right; exact X). apply nth_error_upd_other. intros ->. apply Hk. left. reflexivity. }
  assert (Se : forall l s, sh_failed s = false -> sh_status s = Some true -> NoDup l -> (forall i, In i l -> nth_error (sh_tasks s) i = Some TTest) ->
    exists t, task_steps result l s = Some t /\ sh_failed t = false /\ (forall i, In i l -> nth_error (sh_tasks t) i = Some TDone) /\ (forall i, ~ In i l -> nth_error (sh_tasks t) i = nth_error (sh_tasks s) i)).
  { induction l as [|i l IH]; intros s F V ND H; [exists s; cbn [task_steps]; repeat split; auto; intros i []|]. inversion ND as [|? ? Ni ND']; subst.
    assert (Ei := H i (or_introl eq_refl)). assert (Li : (i < length (sh_tasks s))%nat) by (apply nth_error_Some; congruence). cbn [task_steps]. unfold task_step at 1. rewrite Ei. unfold obind at 1 2. rewrite V, F.
    destruct (IH (mkShared (Some true) false (upd (sh_tasks s) i TDone)) eq_refl eq_refl ND') as (t & Et & Ft & At & Ot).
    { intros k Hk. cbn [sh_tasks]. rewrite nth_error_upd_other by (intros ->; contradiction). apply H. right. exact Hk. }
    cbn [sh_tasks] in Ot. exists t. split; [exact Et|]. split; [exact Ft|]. split.
    - intros k [<-|Hk]; [rewrite Ot by exact Ni; apply nth_error_upd_same, Li|apply At, Hk].
    - intros k Hk. rewrite Ot by (intros X; apply Hk; right; exact X). apply nth_error_upd_other. intros ->. apply Hk. left. reflexivity. }
  assert (App : forall l1 l2 s t, task_steps result l1 s = Some t -> task_steps result (l1 ++ l2) s = task_steps result l2 t).
  { induction l1 as [|i l1 IH]; intros l2 s t E; cbn [task_steps app] in *; [injection E as ->; reflexivity|]. apply obind_some in E. destruct E as (u & Eu & E). rewrite Eu. unfold obind at 1. apply IH, E. }
  assert (Z0 : forall i, In i (seq 0 n) -> nth_error (sh_tasks (sh_start n)) i = Some TLoad).
  { intros i Hi. apply in_seq in Hi. cbn [sh_start sh_tasks]. destruct (nth_error (repeat TLoad n) i) as [p|] eqn:E; [|apply nth_error_None in E; rewrite repeat_length in E; lia]. apply nth_error_In, repeat_spec in E. subst p. reflexivity. }
  destruct (St (seq 0 n) (sh_start n) eq_refl (seq_NoDup _ _) Z0) as (t1 & E1 & F1 & A1 & _).
  assert (No : NoDup others) by (apply NoDup_filter, seq_NoDup).
  assert (Io : forall i, In i others <-> (i < n)%nat /\ i <> good). { intros i. unfold others. rewrite filter_In, in_seq. destruct (Nat.eqb_spec i good); cbn [negb]; split; intros H; try lia; destruct H; try lia; discriminate. }
  destruct (Sa others t1 F1 No) as (t2 & E2 & F2 & A2 & O2); [intros i Hi; apply A1, in_seq; apply Io in Hi; lia|].
  assert (G2 : nth_error (sh_tasks t2) good = Some TAssign) by (rewrite O2 by (rewrite Io; tauto); apply A1, in_seq; lia).
  assert (Lg : (good < length (sh_tasks t2))%nat) by (apply nth_error_Some; congruence).
  assert (E3 : task_steps result [good] t2 = Some (mkShared (Some true) false (upd (sh_tasks t2) good TTest))) by (cbn [task_steps]; unfold task_step; rewrite G2; unfold obind; rewrite Rg, F2; reflexivity).
  set (t3 := mkShared (Some true) false (upd (sh_tasks t2) good TTest)) in *.
  destruct (Se (seq 0 n) t3 eq_refl eq_refl (seq_NoDup _ _)) as (t4 & E4 & F4 & A4 & O4).
  { intros i Hi. apply in_seq in Hi. unfold t3. cbn [sh_tasks]. destruct (Nat.eq_dec good i) as [<-|Ne]; [apply nth_error_upd_same, Lg|]. rewrite nth_error_upd_other by exact Ne. apply A2, Io. lia. }
  exists (seq 0 n ++ others ++ [good] ++ seq 0 n), t4. split; [rewrite (App _ _ _ _ E1), (App _ _ _ _ E2), (App _ _ _ _ E3); exact E4|]. split.
  - apply Forall_forall. intros p I. apply In_nth_error in I. destruct I as (i & I). destruct (lt_dec i n) as [L|L]; [rewrite A4 in I by (apply in_seq; lia); congruence|].
    assert (Len : forall l s t, task_steps result l s = Some t -> length (sh_tasks t) = length (sh_tasks s)).
    { induction l as [|k l IH]; intros s t E; cbn [task_steps] in E; [injection E as ->; reflexivity|]. apply obind_some in E. destruct E as (u & Eu & E). rewrite (IH _ _ E). eapply task_step_length, Eu. }
    apply Len in E1, E2, E3, E4. cbn [sh_start sh_tasks] in E1. rewrite repeat_length in E1. assert (i < length (sh_tasks t4))%nat by (apply nth_error_Some; congruence). lia.
  - intros [_ H]. specialize (H Hb). congruence.
Qed.
Print Assumptions C59_failure_is_reported_refuted.

(** The unsynchronised accesses themselves: two tasks, both past the first test, are about to assign. *)
Theorem C59_data_race_refuted : forall (result : nat -> bool) (n : nat), (2 <= n)%nat -> exists steps s, task_steps result steps (sh_start n) = Some s /\ race s.
Proof.
  intros result n Hn. destruct n as [|[|n]]; [lia|lia|]. exists [0; 1]%nat. eexists. split; [reflexivity|]. exists 0%nat, 1%nat, TAssign. cbn [sh_tasks repeat upd nth_error]. auto.
Qed.
Print Assumptions C59_data_race_refuted.

(** Two groups, the first one bad: sequentially a failure, interleaved a success. *)
Example C59_case : let result i := negb (i =? 0)%nat in
  (exists s, whole_tasks result [0; 1]%nat (sh_start 2) = Some s /\ sh_failed s = true) /\
  (exists s, task_steps result [0; 1; 0; 1; 0; 1]%nat (sh_start 2) = Some s /\ sh_tasks s = [TDone; TDone] /\ sh_failed s = false).
Proof. split; eexists; (split; [reflexivity|]); [reflexivity|split; reflexivity]. Qed.

(** And for bytes: the stream of [C58_case] with one byte of its last section changed.  The last AC task does not succeed, so that one task after the other
    reports the failure in every order; by [C59_failure_is_reported_refuted] threads need not. *)
Definition gx_bad : list Z := Eval vm_compute in firstn (length gx_out - 4) gx_out ++ Z.lxor (nth (length gx_out - 4) gx_out 0) 85 :: skipn (length gx_out - 3) gx_out.
Example C59_case_bytes : decode_groups toy gx_bad 1 2 [0; 1]%nat [0; 1; 2; 3; 4; 5]%nat = GFail /\ decode_groups toy gx_bad 1 2 [1; 0]%nat [5; 1; 4; 3; 2; 0]%nat = GFail.
Proof. split; vm_compute; reflexivity. Qed.

(** * C60 *)
Lemma encode_groups_len O j len len' ac dc od oa out : jpeg_ok j -> Permutation od (seq 0 (groups (jlayout j) dc)) -> Permutation oa (seq 0 (groups (jlayout j) ac)) ->
  encode_groups O j len ac dc od oa = Some out -> Z.of_nat (length out) <= len' -> encode_groups O j len' ac dc od oa = Some out.
Proof.
  intros J Ho Ha E L. destruct (encode_groups_inv _ _ _ _ _ _ _ _ J Ho Ha E) as (Ed & Es & ms & T & Ems & SU & PL & A).
  rewrite (encode_groups_intro O j len' ac dc od oa ms T Ed Es Ems SU PL Ho Ha). unfold assemble_groups in *. cbv zeta in *.
  apply obind_some in A. destruct A as (ec & -> & A). unfold obind at 1. apply obind_some in A. destruct A as (co & -> & A). unfold obind at 1.
  apply obind_some in A. destruct A as (s7 & -> & A). unfold obind at 1. apply obind_some in A. destruct A as (s8 & -> & A). unfold obind at 1.
  destruct (_ <? _) in A; [discriminate|]. injection A as <-. destruct (Z.ltb_spec len' (Z.of_nat (length (snd co ++ concat s7 ++ concat s8)))); [lia|reflexivity].
Qed.
Lemma noise_layout cs : jlayout (noise_jpeg cs) = mkLayout 1 1 320 320.
Proof. reflexivity. Qed.
Lemma noise_groups cs : groups (jlayout (noise_jpeg cs)) 32 = 100%nat /\ groups (jlayout (noise_jpeg cs)) 128 = 9%nat.
Proof. rewrite noise_layout. split; vm_compute; reflexivity. Qed.
Lemma noise_common cs : common_size (noise_jpeg cs) = common_size (noise_jpeg []).
Proof. reflexivity. Qed.
Lemma noise_common_value : 0 <= common_size (noise_jpeg []) <= 30000.
Proof. vm_compute. split; discriminate. Qed.

Lemma noise_one cs : length (j_comps (noise_jpeg cs)) = 1%nat.
Proof. reflexivity. Qed.
Lemma one_image B O j K len dcs acs s : jpeg_ok j -> brotli_inverse B (or_compress O) -> (forall i n, 0 <= ch_rnd (or_round O i) n <= 1024) -> aux_estimate j < 2 ^ 63 -> common_size j = K -> 0 <= K <= 30000 ->
  groups (jlayout j) 32 = 100%nat -> groups (jlayout j) 128 = 9%nat -> length (j_comps j) = 1%nat -> Permutation dcs (seq 0 9) -> Permutation acs (seq 0 100) ->
  encode_groups O j len 32 128 dcs acs = Some s ->
  decode_groups B s 32 128 (seq 0 9) (seq 0 100) = GOk j /\ bytes s /\ Z.of_nat (length s) <= K + 9 * dc_part_size 1 + 100 * ac_part_size 1.
Proof.
  intros J HB HR A EK CV G1 G2 N P1 P2 E.
  destruct (groups_roundtrip B O j len 32 128 dcs acs (seq 0 9) (seq 0 100) s J HB HR) as (_ & D & Y & L); unfold schedule; rewrite ?G1, ?G2; auto.
  - rewrite EK. change (2 ^ 63) with 9223372036854775808. lia.
  - rewrite EK, G1, G2, N in L. split; [exact D|]. split; [exact Y|]. exact L.
Qed.

Lemma none_at_all O j M ac dc len d0 a0 dcs acs : jpeg_ok j -> Permutation d0 (seq 0 (groups (jlayout j) dc)) -> Permutation a0 (seq 0 (groups (jlayout j) ac)) ->
  Permutation dcs (seq 0 (groups (jlayout j) dc)) -> Permutation acs (seq 0 (groups (jlayout j) ac)) ->
  encode_groups O j M ac dc d0 a0 = None -> (forall s, encode_groups O j len ac dc dcs acs = Some s -> Z.of_nat (length s) <= M) -> encode_groups O j len ac dc dcs acs = None.
Proof.
  intros J P1 P2 P3 P4 E R. destruct (encode_groups O j len ac dc dcs acs) as [s|] eqn:Es; [|reflexivity]. exfalso. specialize (R s eq_refl).
  pose proof (encode_groups_len O j len M ac dc dcs acs s J P3 P4 Es R) as X. rewrite (encode_groups_order O j M ac dc dcs acs d0 a0 J P3 P4 P1 P2) in X. congruence.
Qed.

(** C60, that the buffers EncodeGroups allocates for its parts are large enough, is false of the code.  For the group sizes of the tools (32 and 128) there are
    well-formed images with AC coefficients within -2047 .. 2047 that EncodeGroups cannot encode whatever the output buffer, the executor,
    the clustering, the rounding and the Brotli implementation: some part does not fit, and as DC and AC words are stored
    without a bound check (brunsli_encode.cc:698-719) a task writes behind the end of its buffer (groups.cc:331-335, 347-351). *)
Theorem C60_part_buffers_refuted : forall (B : brotli) (O : jpeg -> oracle),
  (forall j, brotli_inverse B (or_compress (O j))) -> (forall j i n, 0 <= ch_rnd (or_round (O j) i) n <= 1024) ->
  exists j, jpeg_ok j /\
    Forall (fun c => Forall (fun b => nth 0 b 0 = 0 /\ Forall (fun v => -2047 <= v <= 2047) b) (c_coeffs c)) (j_comps j) /\
    forall len dcs acs, Permutation dcs (seq 0 (groups (jlayout j) 128)) -> Permutation acs (seq 0 (groups (jlayout j) 32)) -> encode_groups (O j) j len 32 128 dcs acs = None.
Proof.
  intros B O HB HR. pose proof noise_max_value as [_ A]. pose proof noise_common_value as CV. set (K := common_size (noise_jpeg [])) in *.
  assert (EK : forall cs, common_size (noise_jpeg cs) = K) by exact noise_common. clearbody K.
  set (M := K + 9 * dc_part_size 1 + 100 * ac_part_size 1). assert (HM : 0 <= M <= 6700000) by (unfold M, dc_part_size, ac_part_size; lia).
  assert (AX : forall cs, aux_estimate (noise_jpeg cs) < 2 ^ 63) by (intros cs; exact A).
  assert (R : forall cs len dcs acs s, In cs noise_images -> Permutation dcs (seq 0 9) -> Permutation acs (seq 0 100) -> encode_groups (O (noise_jpeg cs)) (noise_jpeg cs) len 32 128 dcs acs = Some s ->
    decode_groups B s 32 128 (seq 0 9) (seq 0 100) = GOk (noise_jpeg cs) /\ bytes s /\ Z.of_nat (length s) <= M).
  { intros cs len dcs acs s I P1 P2 E. destruct (noise_groups cs) as [G1 G2].
    refine (one_image B (O (noise_jpeg cs)) (noise_jpeg cs) K len dcs acs s (noise_ok cs I) (HB _) (HR _) (AX cs) (EK cs) CV G1 G2 (noise_one cs) P1 P2 E). }
  destruct (pigeonhole noise_images (fun cs => encode_groups (O (noise_jpeg cs)) (noise_jpeg cs) M 32 128 (seq 0 9) (seq 0 100)) (Z.to_nat M)) as (cs & I & E).
  - exact noise_images_nodup.
  - rewrite noise_images_len. rewrite Z2Nat.id by lia. change 256 with (2 ^ 8). rewrite <- Z.pow_mul_r by lia.
    transitivity ((2 ^ 755) ^ 102400).
    + rewrite <- Z.pow_mul_r by lia. apply Z.pow_le_mono_r; [lia|]. clear - HM. lia.
    + apply Z.pow_le_mono_l. split; [apply Z.pow_nonneg; lia|]. apply Z.leb_le. vm_compute. reflexivity.
  - intros cs s I E. destruct (R cs _ _ _ s I (Permutation_refl _) (Permutation_refl _) E) as (_ & H1 & H2). split; [exact H1|clear - H2 HM; lia].
  - intros a b s Ia Ib Ea Eb. destruct (R a _ _ _ s Ia (Permutation_refl _) (Permutation_refl _) Ea) as (D1 & _). destruct (R b _ _ _ s Ib (Permutation_refl _) (Permutation_refl _) Eb) as (D2 & _).
    rewrite D1 in D2. injection D2 as D2. exact D2.
  - exists (noise_jpeg cs). split; [exact (noise_ok cs I)|]. split.
    + unfold noise_jpeg. cbv zeta. cbn [j_comps]. constructor; [|constructor]. cbn [c_coeffs]. apply noise_images_in in I as [_ F]. eapply Forall_impl; [|exact F]. intros b Ib.
      apply noise_blocks_in in Ib as (t & -> & _ & Ft). split; [reflexivity|]. clear - Ft. constructor; [lia|exact Ft].
    + destruct (noise_groups cs) as [G1 G2]. intros len dcs acs P1 P2. pose proof (noise_ok cs I) as J. specialize (R cs len dcs acs). revert G1 G2 P1 P2 E R J. generalize (noise_jpeg cs). clear - I. intros j G1 G2 P1 P2 E R J.
      refine (none_at_all (O j) j M 32 128 len (seq 0 9) (seq 0 100) dcs acs J _ _ P1 P2 E _).
      * rewrite G2. apply Permutation_refl.
      * rewrite G1. apply Permutation_refl.
      * intros s Es. rewrite G2 in P1. rewrite G1 in P2. destruct (R s I P1 P2 Es) as (_ & _ & L). exact L.
Qed.
Print Assumptions C60_part_buffers_refuted.
