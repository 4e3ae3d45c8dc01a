(** Context map: move to front and runs of zeros are undone. *)
From Verif Require Import Base BitModel BitProofs CodesModel CodesProofs JBitModel JReadProofs JHuffModel JHuffProofs HistProofs HuffModel HuffProofs1 HuffProofs3
  HTreeModel HTreeProofs1 HTreeProofs3 HTreeProofs4 HStoreModel HStoreProofs1 HStoreProofs2 HStoreProofs3 HStoreProofs4 HStoreProofs5 HStoreProofs6 CMapModel.

(** * Move to front *)

Lemma index_of_in l x : In x l -> (index_of l x < length l)%nat /\ nth (index_of l x) l 0 = x.
Proof.
  induction l as [|y l IH]; intros H; [contradiction|]. cbn [index_of]. destruct (Z.eqb_spec y x) as [->|N]; [cbn [length nth]; split; [lia|reflexivity]|].
  destruct H as [H|H]; [congruence|]. destruct (IH H) as [H1 H2]. cbn [length nth]. split; [lia|exact H2].
Qed.
Lemma move_split (l : list Z) i : (i < length l)%nat -> l = firstn i l ++ nth i l 0 :: skipn (S i) l.
Proof. intros H. rewrite <- (nth_error_skipn_cons l i (nth i l 0)) by (apply nth_error_nth', H). symmetry. apply firstn_skipn. Qed.
Lemma move_in l i x : (i < length l)%nat -> In x (move_to_front l i) <-> In x l.
Proof.
  intros H. rewrite (move_split l i H) at 2. unfold move_to_front. cbn [In]. rewrite !in_app_iff. cbn [In]. tauto.
Qed.
Lemma move_len l i : (i < length l)%nat -> length (move_to_front l i) = length l.
Proof. intros H. rewrite (move_split l i H) at 2. unfold move_to_front. cbn [length]. rewrite !app_length. cbn [length]. lia. Qed.
Lemma move_app l t i : (i < length l)%nat -> move_to_front (l ++ t) i = move_to_front l i ++ t.
Proof.
  intros H. unfold move_to_front. rewrite app_nth1 by exact H. cbn [app]. f_equal. rewrite firstn_app, skipn_app.
  replace (i - length l)%nat with 0%nat by lia. replace (S i - length l)%nat with 0%nat by lia. cbn [firstn skipn]. rewrite app_nil_r, <- app_assoc. reflexivity.
Qed.
Lemma move_0 l : l <> [] -> move_to_front l 0 = l.
Proof. destruct l; [congruence|reflexivity]. Qed.

Lemma imtf_mtf v : forall m t, Forall (fun x => In x m) v -> imtf_loop (m ++ t) (mtf_loop m v) = v.
Proof.
  induction v as [|x v IH]; intros m t F; [reflexivity|]. pose proof (Forall_inv F) as H. cbv beta in H. destruct (index_of_in m x H) as [H1 H2].
  cbn [mtf_loop]. set (i := index_of m x) in *. cbn [imtf_loop]. rewrite Nat2Z.id. rewrite app_nth1 by exact H1. rewrite H2. f_equal.
  rewrite <- (IH (move_to_front m i) t) at 2.
  - f_equal. destruct (Z.eqb_spec (Z.of_nat i) 0) as [E|E]; [|apply move_app, H1]. replace i with 0%nat by lia. rewrite move_0; [reflexivity|]. intros C. rewrite C in H. contradiction.
  - eapply Forall_impl; [|eapply Forall_inv_tail, F]. intros y Hy. apply move_in; assumption.
Qed.
Lemma mtf_loop_ok v : forall m, Forall (fun x => In x m) v -> length (mtf_loop m v) = length v /\ Forall (fun x => 0 <= x < Z.of_nat (length m)) (mtf_loop m v).
Proof.
  induction v as [|x v IH]; intros m F; [split; [reflexivity|constructor]|]. pose proof (Forall_inv F) as H. cbv beta in H. destruct (index_of_in m x H) as [H1 H2].
  cbn [mtf_loop]. set (i := index_of m x) in *. destruct (IH (move_to_front m i)) as [L1 F1].
  { eapply Forall_impl; [|eapply Forall_inv_tail, F]. intros y Hy. apply move_in; assumption. }
  rewrite move_len in F1 by exact H1. split; [cbn [length]; lia|constructor; [lia|exact F1]].
Qed.

Lemma mtf_ok v nc : Forall (fun x => 0 <= x < nc) v -> nc <= 256 ->
  imtf (mtf_transform v) = v /\ length (mtf_transform v) = length v /\ Forall (fun x => 0 <= x < nc) (mtf_transform v).
Proof.
  intros F HN. destruct v as [|x v]; [repeat split; constructor|]. set (w := x :: v) in *. unfold mtf_transform. fold w. cbv iota.
  pose proof (Forall_inv F) as HX. cbv beta in HX.
  assert (M : 0 <= max_elem w <= nc - 1).
  { split; [pose proof (max_elem_ge w x (or_introl eq_refl)); lia|]. apply max_elem_le; [lia|]. eapply Forall_impl; [|exact F]. cbv beta. intros; lia. }
  set (k := Z.to_nat (max_elem w + 1)).
  assert (IN : Forall (fun x => In x (map Z.of_nat (seq 0 k))) w).
  { apply Forall_forall. intros y Hy. pose proof (max_elem_ge w y Hy). rewrite Forall_forall in F. pose proof (F y Hy). cbv beta in *.
    apply in_map_iff. exists (Z.to_nat y). split; [lia|]. apply in_seq. lia. }
  destruct (mtf_loop_ok w _ IN) as [L FF]. rewrite map_length, seq_length in FF. change (match w with [] => [] | _ :: _ => mtf_loop (map Z.of_nat (seq 0 k)) w end) with (mtf_loop (map Z.of_nat (seq 0 k)) w).
  split; [|split; [exact L|eapply Forall_impl; [|exact FF]; cbv beta; intros; lia]].
  unfold imtf. replace 256%nat with (k + (256 - k))%nat by lia. rewrite seq_app, map_app. apply imtf_mtf, IN.
Qed.

(** * Runs of zeros *)

(** What a code stands for. *)
Definition cm_exp (mp : Z) (c : Z * Z) : list Z :=
  if fst c =? 0 then [0] else if fst c <=? mp then repeat 0 (Z.to_nat (2 ^ fst c + snd c)) else [fst c - mp].
Definition cm_ok (mp nc : Z) (c : Z * Z) : Prop := 0 <= fst c < nc + mp /\ (0 < fst c <= mp -> 0 <= snd c < 2 ^ fst c).

Lemma zero_run_ok mp nc : 0 <= mp -> 1 <= nc -> forall fuel reps, 0 <= reps <= Z.of_nat fuel ->
  flat_map (cm_exp mp) (zero_run fuel mp reps) = repeat 0 (Z.to_nat reps) /\ Forall (cm_ok mp nc) (zero_run fuel mp reps).
Proof.
  intros HM HC. induction fuel as [|f IH]; intros reps HR; [replace reps with 0 by lia; split; [reflexivity|constructor]|]. cbn [zero_run].
  destruct (Z.eqb_spec reps 0) as [->|N]; [split; [reflexivity|constructor]|]. pose proof (Z.pow_pos_nonneg 2 mp eq_refl HM) as P.
  destruct (Z.ltb_spec reps (2 * 2 ^ mp)) as [HL|HL].
  - pose proof (Z.log2_spec reps ltac:(lia)) as [L1 L2]. pose proof (Z.log2_nonneg reps) as L0. set (l := Z.log2 reps) in *.
    assert (LM : l <= mp).
    { assert (l < Z.succ mp); [|lia]. unfold l. apply Z.log2_lt_pow2; [lia|]. rewrite Z.pow_succ_r by lia. exact HL. }
    rewrite Z.pow_succ_r in L2 by lia. cbn [flat_map]. rewrite app_nil_r. unfold cm_exp, cm_ok. cbn [fst snd]. split.
    + destruct (Z.eqb_spec l 0) as [E|E].
      * rewrite E in L1, L2. change (2 ^ 0) with 1 in L1, L2. replace reps with 1 by lia. reflexivity.
      * destruct (Z.leb_spec l mp); [|lia]. f_equal. f_equal. lia.
    + constructor; [cbn [fst snd]; lia|constructor].
  - destruct (IH (reps - (2 * 2 ^ mp - 1)) ltac:(lia)) as [E F]. cbn [flat_map]. rewrite E. split.
    + unfold cm_exp. cbn [fst snd]. destruct (Z.eqb_spec mp 0) as [E0|E0].
      * rewrite E0. change (2 * 2 ^ 0 - 1) with 1. replace (Z.to_nat reps) with (S (Z.to_nat (reps - 1))) by lia. reflexivity.
      * rewrite Z.leb_refl. rewrite <- repeat_app. f_equal. lia.
    + constructor; [unfold cm_ok; cbn [fst snd]; lia|exact F].
Qed.

Lemma run_len_zero r : firstn (run_len 0 r) r = repeat 0 (run_len 0 r) /\ (run_len 0 r <= length r)%nat.
Proof.
  induction r as [|x r IH]; [split; [reflexivity|cbn; lia]|]. cbn [run_len]. destruct (Z.eqb_spec x 0) as [->|N]; [|split; [reflexivity|cbn [length]; lia]].
  destruct IH as [E L]. cbn [firstn repeat length]. rewrite E. split; [reflexivity|lia].
Qed.

Lemma rle_ok mp nc : 0 <= mp -> forall fuel v, Forall (fun x => 0 <= x < nc) v -> (length v <= fuel)%nat ->
  flat_map (cm_exp mp) (rle_zeros fuel mp v) = v /\ Forall (cm_ok mp nc) (rle_zeros fuel mp v).
Proof.
  intros HM. induction fuel as [|f IH]; intros v F HL; [destruct v; [split; [reflexivity|constructor]|cbn [length] in HL; lia]|].
  destruct v as [|x r]; [split; [reflexivity|constructor]|]. pose proof (Forall_inv F) as HX. pose proof (Forall_inv_tail F) as FR. cbv beta in HX. cbn [length] in HL.
  cbn [rle_zeros]. destruct (Z.eqb_spec x 0) as [->|N].
  - destruct (run_len_zero r) as [E L]. set (k := run_len 0 r) in *. destruct (zero_run_ok mp nc HM ltac:(lia) (S k) (Z.of_nat k + 1) ltac:(lia)) as [E1 F1].
    destruct (IH (skipn k r)) as [E2 F2].
    { rewrite <- (firstn_skipn k r) in FR. apply Forall_app in FR as [_ FR]. exact FR. }
    { rewrite skipn_length. lia. }
    rewrite flat_map_app, E1, E2. split; [|apply Forall_app; split; assumption].
    replace (Z.to_nat (Z.of_nat k + 1)) with (S k) by lia. cbn [repeat app]. f_equal. rewrite <- E. apply firstn_skipn.
  - destruct (IH r FR ltac:(lia)) as [E2 F2]. cbn [flat_map]. rewrite E2. unfold cm_exp at 1. cbn [fst snd].
    destruct (Z.eqb_spec (x + mp) 0); [lia|]. destruct (Z.leb_spec (x + mp) mp); [lia|]. split; [cbn [app]; f_equal; lia|].
    constructor; [unfold cm_ok; cbn [fst snd]; lia|exact F2].
Qed.
Lemma cm_exp_pos mp c nc : 0 <= mp -> cm_ok mp nc c -> (1 <= length (cm_exp mp c))%nat.
Proof.
  intros HM [H1 H2]. unfold cm_exp. destruct (Z.eqb_spec (fst c) 0); [cbn; lia|]. destruct (Z.leb_spec (fst c) mp); [|cbn; lia]. rewrite repeat_length.
  pose proof (Z.pow_pos_nonneg 2 (fst c) eq_refl). lia.
Qed.
Lemma flat_len mp nc l : 0 <= mp -> Forall (cm_ok mp nc) l -> (length l <= length (flat_map (cm_exp mp) l))%nat.
Proof. intros HM. induction 1 as [|c l H F IH]; [reflexivity|]. cbn [flat_map length]. rewrite app_length. pose proof (cm_exp_pos mp c nc HM H). lia. Qed.

Lemma max_prefix_range v : 0 <= max_prefix v <= 6.
Proof. unfold max_prefix. pose proof (Z.log2_nonneg (max_reps 0 v)). destruct (0 <? max_reps 0 v); lia. Qed.

(** * The map is read back *)

Lemma read_cmap_ok strict table mp nc depth bits n rest : 0 <= mp <= 16 -> nc <= 256 ->
  (forall l, Forall (cm_ok mp nc) l -> Forall (fun c => forall rest, arun false (read_sym table) (bits_of (Z.to_nat (nth (Z.to_nat (fst c)) depth 0)) (nth (Z.to_nat (fst c)) bits 0) ++ rest) = Some (fst c, rest)) l ->
  forall fuel acc fs, strict = false -> (n - length acc <= fuel)%nat -> length (acc ++ flat_map (cm_exp mp) l) = n -> length depth = length bits ->
  store_cmap_syms mp depth bits l = JOk fs ->
  arun strict (read_cmap fuel table mp n acc) (fields_bits (fs ++ [(1%nat, 1)]) ++ rest) = Some (imtf (acc ++ flat_map (cm_exp mp) l), rest)).
Proof.
  intros HM HN. induction l as [|[s x] l IH]; intros FO FR fuel acc fs SF HF HL LD E.
  - injection E as <-. cbn [flat_map app] in *. rewrite app_nil_r in *. subst strict.
    assert (EQ : read_cmap fuel table mp n acc = Read 1 (fun b => Chk (Ret (if b =? 0 then acc else imtf acc)))).
    { destruct fuel; cbn [read_cmap]; destruct (Nat.ltb_spec (length acc) n); first [lia|reflexivity]. }
    rewrite EQ. cbn [fields_bits]. rewrite app_nil_r, arun_Read by (cbn; lia). reflexivity.
  - pose proof (Forall_inv FO) as [H1 H2]. cbn [fst snd] in H1, H2. pose proof (Forall_inv FR) as RS. cbn [fst] in RS.
    cbn [store_cmap_syms] in E. destruct (aget depth s) as [d| |] eqn:E1; try discriminate. cbn [jbind] in E. destruct (aget bits s) as [b| |] eqn:E2; try discriminate. cbn [jbind] in E.
    destruct (store_cmap_syms mp depth bits l) as [fs'| |] eqn:E3; try discriminate. cbn [jbind] in E. injection E as <-.
    apply aget_Some in E1 as [_ E1]. apply aget_Some in E2 as [_ E2]. apply (nth_error_nth _ _ 0) in E1, E2. rewrite E1, E2 in RS.
    pose proof (cm_exp_pos mp (s, x) nc ltac:(lia) (Forall_inv FO)) as PX. cbn [flat_map] in HL |- *. rewrite !app_length in HL.
    destruct fuel as [|f]; [lia|]. cbn [read_cmap]. destruct (Nat.ltb_spec (length acc) n); [|lia]. cbn [arun].
    subst strict. cbn [andb]. rewrite arun_bind. cbn [app fields_bits]. rewrite <- !app_assoc, !fields_bits_app, <- !app_assoc. rewrite RS.
    rewrite !app_assoc. rewrite <- (app_assoc (fields_bits _) (fields_bits fs')), <- fields_bits_app.
    set (fm := length (flat_map (cm_exp mp) l)) in HL. unfold cm_exp at 1. unfold cm_exp in PX, HL. cbn [fst snd] in PX, HL |- *. revert PX HL. destruct (Z.eqb_spec s 0) as [->|N]; [intros PX HL|].
    + cbn [Z.ltb Z.compare andb fields_bits app]. apply (IH (Forall_inv_tail FO) (Forall_inv_tail FR) f (acc ++ [0]) fs' eq_refl); [rewrite app_length; cbn [length]; lia| |exact LD|reflexivity].
      rewrite !app_length. fold fm. cbn [length] in HL |- *. lia.
    + destruct (Z.leb_spec s mp) as [HS|HS]; intros PX HL.
      * replace (0 <? s) with true by lia. cbn [andb fields_bits]. rewrite app_nil_r, <- app_assoc. rewrite repeat_length in HL.
        assert (P2 : 0 < 2 ^ s) by (apply Z.pow_pos_nonneg; lia).
        rewrite arun_Read by (rewrite Z2Nat.id by lia; apply H2; lia). destruct (Z.ltb_spec (Z.of_nat n) (Z.of_nat (length acc) + (2 ^ s + x))); [lia|].
        apply (IH (Forall_inv_tail FO) (Forall_inv_tail FR) f (acc ++ repeat 0 (Z.to_nat (2 ^ s + x))) fs' eq_refl); [rewrite app_length, repeat_length; lia| |exact LD|reflexivity].
        rewrite !app_length, repeat_length. fold fm. lia.
      * rewrite andb_false_r. cbn [fields_bits app]. rewrite Z.mod_small by lia.
        apply (IH (Forall_inv_tail FO) (Forall_inv_tail FR) f (acc ++ [s - mp]) fs' eq_refl); [rewrite app_length; cbn [length]; lia| |exact LD|reflexivity].
        rewrite !app_length. fold fm. cbn [length] in HL |- *. lia.
Qed.

Lemma store_cmap_syms_ok mp nc depth bits l : 0 <= mp <= 16 -> Forall (cm_ok mp nc) l -> length depth = length bits -> Z.of_nat (length depth) = nc + mp ->
  Forall (fun d => 0 <= d <= 15) depth -> (forall s, (s < length depth)%nat -> 0 <= nth s bits 0 < 2 ^ nth s depth 0) ->
  exists fs, store_cmap_syms mp depth bits l = JOk fs /\ fields_ok fs.
Proof.
  intros HM F LD LN FD FB. induction F as [|[s x] l [H1 H2] F (fs & IH & FO)]; [exists []; split; [reflexivity|constructor]|]. cbn [fst snd] in H1, H2.
  cbn [store_cmap_syms]. rewrite !aget_nthZ by lia. cbn [jbind]. rewrite IH. cbn [jbind]. eexists. split; [reflexivity|].
  assert (D : 0 <= nth (Z.to_nat s) depth 0 <= 15) by (rewrite Forall_forall in FD; apply FD, nth_In; lia).
  apply fields_ok_cons. split; [split; [lia|rewrite Z2Nat.id by lia; apply FB; lia]|]. apply fields_ok_app. split; [|exact FO].
  destruct (Z.ltb_spec 0 s), (Z.leb_spec s mp); cbn [andb]; [|constructor|constructor|constructor]. apply fields_ok_cons. split; [split; [lia|rewrite Z2Nat.id by lia; apply H2; lia]|constructor].
Qed.

Lemma nth_firstn_lt {A} (l : list A) d n i : (i < n)%nat -> nth i (firstn n l) d = nth i l d.
Proof. revert l i. induction n as [|n IH]; intros l i H; [lia|]. destruct l as [|x l]; [destruct i; reflexivity|]. destruct i; cbn [firstn nth]; [reflexivity|]. apply IH. lia. Qed.

Lemma encode_cmap_ok cmap nc : 2 <= nc <= 256 -> Forall (fun c => 0 <= c < nc) cmap -> Z.of_nat (length cmap) < 2 ^ 22 ->
  exists fs, encode_cmap cmap nc = JOk (encode_var_len_uint8 (nc - 1) ++ fs) /\ fields_ok fs
    /\ forall arena rest, 648 <= Z.of_nat (length arena) <= 65535 ->
         arun false (read_context_map arena (Z.to_nat nc) (length cmap)) (fields_bits fs ++ rest) = Some (cmap, rest).
Proof.
  intros HN F HL. destruct (mtf_ok cmap nc F ltac:(lia)) as (IM & LM & FM). unfold encode_cmap. destruct (Z.eqb_spec nc 1); [lia|].
  set (t := mtf_transform cmap) in *. pose proof (max_prefix_range t) as MP. set (mp := max_prefix t) in *.
  destruct (rle_ok mp nc ltac:(lia) (length t) t FM ltac:(lia)) as [EX FO]. set (rle := rle_zeros (length t) mp t) in *.
  pose proof (flat_len mp nc rle ltac:(lia) FO) as LR. rewrite EX in LR.
  destruct (count_codes_ok (map fst rle) (repeat 0 kMaxCMapAlphabet)) as (hist & EH & LH & HH).
  { rewrite Forall_map. eapply Forall_impl; [|exact FO]. intros c [H1 _]. rewrite repeat_length. change (Z.of_nat kMaxCMapAlphabet) with 272. lia. }
  { apply Forall_forall. intros x Hx. apply repeat_spec in Hx. lia. }
  { intros i Hi. rewrite nth_repeat, map_length. lia. }
  rewrite EH. cbn [jbind]. change (Z.of_nat kMaxCMapAlphabet) with 272. destruct (Z.ltb_spec 272 (nc + mp)); [lia|].
  rewrite repeat_length in LH, HH. change kMaxCMapAlphabet with 272%nat in LH, HH.
  set (N := Z.to_nat (nc + mp)). set (h := firstn N hist). assert (Lh : length h = N) by (unfold h; rewrite firstn_length; lia).
  assert (Nh : forall i, (i < N)%nat -> nth i h 0 = cnt (Z.of_nat i) (map fst rle)).
  { intros i Hi. unfold h. rewrite nth_firstn_lt by exact Hi. rewrite HH by lia. rewrite nth_repeat. lia. }
  assert (Fh : Forall (fun c => 0 <= c <= Z.of_nat (length rle)) h).
  { apply Forall_forall. intros x Hx. apply (In_nth _ _ 0) in Hx as (i & Hi & <-). rewrite Nh by lia. split; [apply cnt_nonneg|]. rewrite <- (map_length fst). apply cnt_len. }
  assert (Mh : max_elem h <= Z.of_nat (length rle)) by (apply max_elem_le; [lia|eapply Forall_impl; [|exact Fh]; cbv beta; intros; lia]).
  assert (M0 : 0 <= max_elem h) by (unfold max_elem; clear; induction h as [|x l IH]; cbn [fold_right]; lia).
  pose proof (used_len h) as UL.
  destruct (build_and_store_ok h) as (fc & depth & bits & EB & FC & LD & LB & FD & BR & RD).
  { eapply Forall_impl; [|exact Fh]. cbv beta. intros; lia. }
  { lia. }
  { assert (length rle <= length cmap)%nat by lia. nia. }
  { lia. }
  rewrite EB. cbn [jbind].
  destruct (store_cmap_syms_ok mp nc depth bits rle ltac:(lia) FO ltac:(lia) ltac:(lia) FD) as (fs & ES & FFS).
  { intros s Hs. apply BR. lia. }
  rewrite ES. cbn [jbind]. eexists. split; [reflexivity|]. split.
  { apply fields_ok_app. split.
    - destruct (Z.ltb_spec 0 mp); [|apply fields_ok_cons; split; [split; [lia|cbn; lia]|constructor]].
      apply fields_ok_cons; split; [split; [lia|cbn; lia]|]. apply fields_ok_cons; split; [split; [lia|change (2 ^ Z.of_nat 4) with 16; lia]|constructor].
    - apply fields_ok_app. split; [exact FC|]. apply fields_ok_app. split; [exact FFS|]. apply fields_ok_cons; split; [split; [lia|cbn; lia]|constructor]. }
  intros arena rest HA. unfold read_context_map, read_cmap_code. rewrite arun_bind. cbn [arun andb].
  assert (GO : forall m, m = mp -> arun false (bind (read_code arena (Z.to_nat nc + Z.to_nat m)) (fun t => Ret (m, t))) (fields_bits fc ++ (fields_bits (fs ++ [(1%nat, 1)]) ++ rest))
      = match arun false (read_code arena N) (fields_bits fc ++ (fields_bits (fs ++ [(1%nat, 1)]) ++ rest)) with Some (t, r) => Some ((mp, t), r) | None => None end).
  { intros m ->. rewrite arun_bind. replace (Z.to_nat nc + Z.to_nat mp)%nat with N by lia. destruct (arun false (read_code arena N) _) as [[a b]|]; reflexivity. }
  assert (FIN : forall table, arun false (read_code arena N) (fields_bits fc ++ (fields_bits (fs ++ [(1%nat, 1)]) ++ rest)) = Some (table, fields_bits (fs ++ [(1%nat, 1)]) ++ rest) ->
      (forall strict2 s rest2, (s < N)%nat -> nth s h 0 <> 0 -> arun strict2 (read_sym table) (bits_of (Z.to_nat (nth s depth 0)) (nth s bits 0) ++ rest2) = Some (Z.of_nat s, rest2)) ->
      arun false (read_cmap (length cmap) table mp (length cmap) []) (fields_bits (fs ++ [(1%nat, 1)]) ++ rest) = Some (cmap, rest)).
  { intros table _ RS. pose proof (read_cmap_ok false table mp nc depth bits (length cmap) rest ltac:(lia) ltac:(lia) rle FO) as RC. rewrite EX in RC.
    assert (X : Forall (fun c => forall rest, arun false (read_sym table) (bits_of (Z.to_nat (nth (Z.to_nat (fst c)) depth 0)) (nth (Z.to_nat (fst c)) bits 0) ++ rest) = Some (fst c, rest)) rle).
    { apply Forall_forall. intros c Hc rest0. rewrite Forall_forall in FO. destruct (FO c Hc) as [H1 _]. rewrite (RS false (Z.to_nat (fst c)) rest0); [rewrite Z2Nat.id by lia; reflexivity|lia|].
      rewrite Nh by lia. rewrite Z2Nat.id by lia. apply cnt_in, in_map, Hc. }
    rewrite (RC X (length cmap) [] fs eq_refl); [cbn [app]; rewrite IM; reflexivity|lia|cbn [app]; lia|lia|exact ES]. }
  destruct (RD false arena (fields_bits (fs ++ [(1%nat, 1)]) ++ rest)) as (table & RT & RS); [lia|]. rewrite Lh in RT, RS.
  rewrite !fields_bits_app, <- !app_assoc. rewrite (app_assoc (fields_bits fs)), <- fields_bits_app.
  destruct (Z.ltb_spec 0 mp) as [HP|HP].
  - cbn [fields_bits]. rewrite app_nil_r, <- !app_assoc. rewrite arun_Read by (cbn; lia). change (1 =? 0) with false. cbv iota.
    rewrite arun_Read by (change (2 ^ Z.of_nat 4) with 16; lia). rewrite (GO (mp - 1 + 1)), RT by lia. cbn [fst snd]. apply FIN; assumption.
  - cbn [fields_bits]. rewrite app_nil_r. rewrite arun_Read by (cbn; lia). change (0 =? 0) with true. cbv iota. rewrite (GO 0), RT by lia. cbn [fst snd]. apply FIN; assumption.
Qed.
