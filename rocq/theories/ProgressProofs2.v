(** What the block loops leave as it is, and in which order they come by. *)
From Coq Require Import Permutation.
From Verif Require Import Base CodesModel JpegModel EntropyModel LehmerModel LehmerProofs QuantModel InternalsModel MetaModel HeaderModel Stream Machine ContainerModel HSecModel CoefModel CoefProofs ACProofs WordModel Decoder DriverModel OutputModel SerialModel ProgressModel.

(** * AC blocks keep the DC coefficient *)
Lemma eget_eall {A B} (P : B -> Prop) (o : option A) k : (forall a, o = Some a -> eall P (k a)) -> eall P (eget o k).
Proof. intros H. destruct o as [a|]; cbn [eget]; [apply H; reflexivity|exact I]. Qed.
Lemma eall_any {A} (p : eprog A) : eall (fun _ => True) p.
Proof. induction p; cbn [eall]; auto. Qed.
Lemma eall_then {A B} (P : B -> Prop) (p : eprog A) f : (forall a, eall P (f a)) -> eall P (ebind p f).
Proof. intros H. eapply eall_ebind; [apply eall_any|]. intros a _. apply H. Qed.

Definition above_dc (ak : accst) : Prop := forall k v, 1 <= k -> zget (ak_order ak) k = Some v -> 1 <= v.

Lemma order_above m o : order_ok o -> above_dc (ac_consts m o).
Proof.
  intros Ho k v Hk E. cbn [ac_consts ak_order] in E. pose proof (Permutation_length (proj1 Ho)) as L. change (length (iota 64)) with 64%nat in L.
  assert (k < 64). { unfold zget in E. destruct (k <? 0); [discriminate|]. assert (nth_error o (Z.to_nat k) <> None) as N by congruence. apply nth_error_Some in N. lia. }
  destruct (order_get o k Ho ltac:(lia)) as (v' & E' & _ & H'). rewrite E in E'. injection E' as <-. auto.
Qed.

Lemma zset_keeps0 (b : block) kn v b' : 1 <= kn -> zset b kn v = Some b' -> nth_error b' 0 = nth_error b 0.
Proof. intros H E. apply zset_some in E as [_ ->]. apply nth_error_upd_other. lia. Qed.

Lemma ac_loop_keeps0 cmap codes legacy ak m bp last : above_dc ak -> forall k nz cur st,
  eall (fun '(b', _, _) => nth_error b' 0 = nth_error cur 0) (dec_ac_loop cmap codes legacy ak m bp last k nz cur st).
Proof.
  intros Ha. induction k as [|k IH]; intros nz cur st; cbn [dec_ac_loop]; [cbn [eall]; reflexivity|].
  apply eall_then. intros [is_zero zero']. cbv zeta. apply eget_eall. intros kn Ek. apply Ha in Ek; [|lia]. destruct is_zero.
  - apply eget_eall. intros cur' Ec. apply zset_keeps0 in Ec; [|exact Ek]. apply eget_eall. intros st2 _.
    eapply eall_mono; [|apply IH]. intros [[b' n'] s'] E. congruence.
  - apply eget_eall. intros c _. apply eall_then. intros [sb sign']. apply eget_eall. intros zd _. apply eall_then. intros [absval extra'].
    apply eget_eall. intros cur' Ec. apply zset_keeps0 in Ec; [|exact Ek]. apply eget_eall. intros st3 _.
    eapply eall_mono; [|apply IH]. intros [[b' n'] s'] E. congruence.
Qed.
Lemma ac_block_keeps0 cmap codes legacy ak m bp e b st : above_dc ak ->
  eall (fun '(b', _) => nth_error b' 0 = nth_error b 0) (dec_ac_block cmap codes legacy ak m bp e b st).
Proof.
  intros Ha. unfold dec_ac_block. destruct e.
  - apply eget_eall. intros st1 _. apply eget_eall. intros st2 _. cbn [eall]. reflexivity.
  - apply eget_eall. intros c _. apply eall_then. intros [last nnz']. cbv zeta. apply eget_eall. intros st1 _.
    eapply eall_ebind; [apply (ac_loop_keeps0 _ _ _ _ _ _ _ Ha)|]. intros [[b' nz] st2] E. apply eget_eall. intros st3 _. cbn [eall]. exact E.
Qed.

(** * Blocks *)
Lemma nth_error_lt {A} (l : list A) i v : nth_error l i = Some v -> (i < length l)%nat.
Proof. intros E. apply nth_error_Some. rewrite E. discriminate. Qed.
Definition block_at (planes : list plane) (i j : nat) : option block := match nth_error planes i with Some p => nth_error p j | None => None end.
(** Number [j] of component [i] is not among the blocks to come. *)
Definition passed (ms : list cmeta) (vs : list (nat * nat * nat)) (i j : nat) : Prop :=
  forall y x m, In (i, y, x) vs -> nth_error ms i = Some m -> (y * cm_w m + x)%nat <> j.
Definition same_shape (a b : list plane) : Prop := map (@length block) a = map (@length block) b.
(** All DC coefficients are the same. *)
Definition dc_same (a b : list plane) : Prop :=
  same_shape a b /\ forall i j x, block_at a i j = Some x -> exists y, block_at b i j = Some y /\ nth_error y 0 = nth_error x 0.

Lemma passed_tail ms v vs i j : passed ms (v :: vs) i j -> passed ms vs i j.
Proof. intros H y x m I. apply H. right. exact I. Qed.

Lemma map_upd {A B} (f : A -> B) : forall l i v, map f (upd l i v) = upd (map f l) i (f v).
Proof. induction l as [|a l IH]; intros [|i] v; cbn [upd map]; try reflexivity. rewrite IH. reflexivity. Qed.
Lemma upd_id {A} : forall (l : list A) i v, nth_error l i = Some v -> upd l i v = l.
Proof. induction l as [|a l IH]; intros [|i] v; cbn [upd nth_error]; intros E; try discriminate; [injection E as ->; reflexivity|]. rewrite IH by exact E. reflexivity. Qed.
Lemma shape_upd planes i p j b : nth_error planes i = Some p -> same_shape (upd planes i (upd p j b)) planes.
Proof. intros E. unfold same_shape. rewrite map_upd, upd_length. apply upd_id. rewrite nth_error_map, E. reflexivity. Qed.
Lemma block_at_upd_other planes i p j b i' j' : nth_error planes i = Some p -> (i, j) <> (i', j') -> block_at (upd planes i (upd p j b)) i' j' = block_at planes i' j'.
Proof.
  intros E N. unfold block_at, plane, block in *. destruct (Nat.eq_dec i i') as [<-|Hi].
  - rewrite nth_error_upd_same by (exact (nth_error_lt _ _ _ E)). rewrite E. apply nth_error_upd_other. congruence.
  - rewrite nth_error_upd_other by exact Hi. reflexivity.
Qed.
Lemma block_at_upd_same planes i p j b x : nth_error planes i = Some p -> nth_error p j = Some x -> block_at (upd planes i (upd p j b)) i j = Some b.
Proof.
  intros E E2. unfold block_at, plane, block in *. rewrite nth_error_upd_same by (exact (nth_error_lt _ _ _ E)). apply nth_error_upd_same. exact (nth_error_lt _ _ _ E2).
Qed.
Lemma dc_same_refl a : dc_same a a.
Proof. split; [reflexivity|]. eauto. Qed.
Lemma dc_same_trans a b c : dc_same a b -> dc_same b c -> dc_same a c.
Proof. intros [S1 H1] [S2 H2]. split; [unfold same_shape in *; congruence|]. intros i j x E. destruct (H1 i j x E) as (y & E1 & N1). destruct (H2 i j y E1) as (z & E3 & N3). exists z. split; [exact E3|congruence]. Qed.
Lemma dc_same_upd planes i p j b b' : nth_error planes i = Some p -> nth_error p j = Some b -> nth_error b' 0 = nth_error b 0 -> dc_same planes (upd planes i (upd p j b')).
Proof.
  intros E E2 N. split; [symmetry; apply shape_upd, E|]. intros i' j' x Ex. destruct (Nat.eq_dec i i') as [<-|Hi]; [destruct (Nat.eq_dec j j') as [<-|Hj]|].
  - rewrite (block_at_upd_same _ _ _ _ _ _ E E2). exists b'. split; [reflexivity|]. unfold block_at, plane, block in *. rewrite E, E2 in Ex. injection Ex as <-. exact N.
  - rewrite (block_at_upd_other _ _ _ _ _ _ _ E) by congruence. eauto.
  - rewrite (block_at_upd_other _ _ _ _ _ _ _ E) by congruence. eauto.
Qed.

(** DecodeDC changes the blocks it visits only. *)
Lemma xrun_dc_keeps c opt : forall vs sts planes flags d,
  match xrun_dc c vs sts planes flags opt d with
  | GoDone (planes', _) _ => same_shape planes' planes /\ forall i j, passed (cf_ms c) vs i j -> block_at planes' i j = block_at planes i j
  | GoMore t _ => same_shape (dx_planes t) planes /\ exists pre, vs = pre ++ dx_vs t
  | GoBad => True
  end.
Proof.
  induction vs as [|[[i y] x] rest IH]; intros sts planes flags d; cbn [xrun_dc]; [split; [reflexivity|auto]|].
  destruct (can_read opt 6 d); [|cbn [dx_planes dx_vs]; split; [reflexivity|exists []; reflexivity]].
  destruct (nth_error (cf_ms c) i) as [m|] eqn:Em; [|exact I]. destruct (nth_error sts i) as [st|]; [|exact I].
  destruct (nth_error planes i) as [p|] eqn:Ep; [|exact I]. destruct (nth_error flags i) as [fl|]; [|exact I]. cbv zeta.
  destruct (erun _ d) as [[[[[is_empty sign] absval] st'] d']|]; [|exact I]. destruct (zset fl _ is_empty) as [fl'|]; [|exact I].
  destruct (nth_error p _) as [b|] eqn:Eb; [|exact I].
  match goal with |- context [xrun_dc c rest ?S ?P ?F opt d'] => specialize (IH S P F d'); destruct (xrun_dc c rest S P F opt d') as [[planes' fl2] d2| |t d2] end; [|exact I|].
  - destruct IH as [S1 H1]. split; [unfold same_shape in *; rewrite S1; apply shape_upd, Ep|]. intros i' j' Hp. rewrite H1 by (eapply passed_tail, Hp).
    apply block_at_upd_other; [exact Ep|]. intros E. injection E as <- <-. eapply (Hp y x m); [left; reflexivity|exact Em|reflexivity].
  - destruct IH as [S1 [pre Hv]]. split; [unfold same_shape in *; rewrite S1; apply shape_upd, Ep|]. exists ((i, y, x) :: pre). rewrite Hv. reflexivity.
Qed.

Definition acx_planes (t : acx) : list plane := match t with AOrders _ _ _ p => p | ABlocks _ _ _ _ p => p end.
Definition acx_ok (c : cfg) (t : acx) : Prop :=
  match t with
  | AOrders n acc _ _ => Forall order_ok acc
  | ABlocks aks _ vs _ _ => Forall above_dc aks /\ exists pre, visits (cf_ms c) = pre ++ vs
  end.

(** DecodeAC keeps all DC coefficients, and all of the blocks it does not visit any more. *)
Lemma xrun_ac_keeps c opt aks flags : Forall above_dc aks -> forall vs sts planes d,
  match xrun_ac c aks flags vs sts planes opt d with
  | GoDone planes' _ => dc_same planes planes' /\ forall i j, passed (cf_ms c) vs i j -> block_at planes' i j = block_at planes i j
  | GoMore t _ => dc_same planes (acx_planes t) /\ match t with ABlocks aks' _ vs' _ _ => aks' = aks /\ exists pre, vs = pre ++ vs' | _ => False end
  | GoBad => True
  end.
Proof.
  intros Ha. induction vs as [|[[i y] x] rest IH]; intros sts planes d; cbn [xrun_ac]; [split; [apply dc_same_refl|auto]|].
  destruct (nth_error (cf_ms c) i) as [m|] eqn:Em; [|exact I]. destruct (nth_error aks i) as [ak|] eqn:Ea; [|exact I]. destruct (nth_error sts i) as [st|]; [|exact I].
  destruct (nth_error planes i) as [p|] eqn:Ep; [|exact I]. destruct (nth_error flags i) as [fl|]; [|exact I]. cbv zeta.
  destruct (nth_error p _) as [b|] eqn:Eb; [|exact I]. destruct (nth_error fl _) as [e|]; [|exact I].
  destruct (e || can_read opt 297 d); [|cbn [acx_planes]; split; [apply dc_same_refl|]; split; [reflexivity|exists []; reflexivity]].
  destruct (erun _ d) as [[[b' st'] d']|] eqn:Er; [|exact I].
  assert (K : nth_error b' 0 = nth_error b 0).
  { pose proof (erun_eall _ _ (ac_block_keeps0 _ _ _ _ _ _ _ _ _ (proj1 (Forall_forall _ _) Ha ak (nth_error_In _ _ Ea))) _ _ _ Er) as K. exact K. }
  match goal with |- context [xrun_ac c aks flags rest ?S ?P opt d'] => specialize (IH S P d'); destruct (xrun_ac c aks flags rest S P opt d') as [planes' d2| |t d2] end; [|exact I|].
  - destruct IH as [S1 H1]. split; [eapply dc_same_trans; [eapply dc_same_upd; eassumption|exact S1]|]. intros i' j' Hp. rewrite H1 by (eapply passed_tail, Hp).
    apply block_at_upd_other; [exact Ep|]. intros E. injection E as <- <-. eapply (Hp y x m); [left; reflexivity|exact Em|reflexivity].
  - destruct IH as [S1 H1]. split; [eapply dc_same_trans; [eapply dc_same_upd; eassumption|exact S1]|]. destruct t as [|aks' fl2 vs' sts2 pl2]; [contradiction|]. destruct H1 as [-> [pre Hv]]. split; [reflexivity|]. exists ((i, y, x) :: pre). rewrite Hv. reflexivity.
Qed.

Lemma omap2_above : forall ms os aks, omap2 (fun m o => Some (ac_consts m o)) ms os = Some aks -> Forall order_ok os -> Forall above_dc aks.
Proof.
  induction ms as [|m ms IH]; intros [|o os] aks E F; cbn [omap2] in E; try discriminate; [injection E as <-; constructor|].
  unfold obind in E. cbv beta iota in E. destruct (omap2 _ ms os) as [t|] eqn:Et; [|discriminate]. injection E as <-. inversion F; subst. constructor; [apply order_above; assumption|eapply IH; eassumption].
Qed.
Lemma xrun_orders_keeps c opt flags planes : forall n acc d, Forall order_ok acc ->
  match xrun_orders c n acc flags planes opt d with
  | GoDone planes' _ => dc_same planes planes'
  | GoMore t _ => dc_same planes (acx_planes t) /\ acx_ok c t
  | GoBad => True
  end.
Proof.
  induction n as [|n IH]; intros acc d Fa; cbn [xrun_orders].
  - destruct (omap2 _ (cf_ms c) (rev acc)) as [aks|] eqn:E; [|exact I]. pose proof (omap2_above _ _ _ E (Forall_rev Fa)) as Ha.
    match goal with |- context [xrun_ac c aks flags ?V ?S planes opt d] => pose proof (xrun_ac_keeps c opt aks flags Ha V S planes d) as K; destruct (xrun_ac c aks flags V S planes opt d) as [planes' d2| |t d2] end; [apply K|exact I|].
    destruct K as [S1 K]. split; [exact S1|]. destruct t as [|aks' fl2 vs' sts2 pl2]; [contradiction|]. destruct K as [-> K]. cbn [acx_ok]. auto.
  - destruct (can_read opt 121 d); [|cbn [acx_planes acx_ok]; split; [apply dc_same_refl|exact Fa]]. destruct (erun decode_coeff_order d) as [[o d']|] eqn:Er; [|exact I].
    apply IH. constructor; [|exact Fa]. exact (erun_eall order_ok _ decode_coeff_order_eall _ _ _ Er).
Qed.
(** The blocks to come from a state of the AC section. *)
Definition acx_left (c : cfg) (t : acx) : list (nat * nat * nat) := match t with AOrders _ _ _ _ => visits (cf_ms c) | ABlocks _ _ vs _ _ => vs end.
Lemma xrun_acx_keeps c t opt d : acx_ok c t ->
  match xrun_acx c t opt d with
  | GoDone planes' _ => dc_same (acx_planes t) planes' /\ match t with ABlocks _ _ vs _ planes => forall i j, passed (cf_ms c) vs i j -> block_at planes' i j = block_at planes i j | _ => True end
  | GoMore t' _ => dc_same (acx_planes t) (acx_planes t') /\ acx_ok c t'
  | GoBad => True
  end.
Proof.
  destruct t as [n acc flags planes|aks flags vs sts planes]; cbn [acx_ok xrun_acx acx_planes]; intros H.
  - pose proof (xrun_orders_keeps c opt flags planes n acc d H) as K. destruct (xrun_orders c n acc flags planes opt d); auto.
  - destruct H as [Ha [pre Hv]]. pose proof (xrun_ac_keeps c opt aks flags Ha vs sts planes d) as K. destruct (xrun_ac c aks flags vs sts planes opt d) as [planes' d2| |t d2]; [exact K|exact I|].
    destruct K as [S1 K]. split; [exact S1|]. destruct t as [|aks' fl2 vs' sts2 pl2]; [contradiction|]. destruct K as [-> [pre' K]]. cbn [acx_ok]. split; [exact Ha|]. exists (pre ++ pre'). rewrite <- app_assoc, <- K. exact Hv.
Qed.

(** * The order of the visits *)
Lemma flat_sorted {A} (F : nat -> list A) (key : A -> nat -> Prop) (HF : forall r v, In v (F r) -> key v r) : forall n s pre v rest,
  flat_map F (seq s n) = pre ++ v :: rest -> exists r, (s <= r < s + n)%nat /\ key v r /\ forall w, In w rest -> exists r', (r <= r')%nat /\ key w r'.
Proof.
  induction n as [|n IH]; intros s pre v rest E; cbn [seq flat_map] in E; [destruct pre; discriminate|].
  destruct (Nat.lt_ge_cases (length pre) (length (F s))) as [L|L].
  - assert (F s = pre ++ v :: firstn (length (F s) - S (length pre)) rest /\ rest = firstn (length (F s) - S (length pre)) rest ++ flat_map F (seq (S s) n)) as [E1 E2].
    { pose proof (f_equal (firstn (length (F s))) E) as G. rewrite firstn_app, Nat.sub_diag, firstn_O, app_nil_r, firstn_all in G.
      rewrite firstn_app in G. rewrite (firstn_all2 pre) in G by lia. replace (length (F s) - length pre)%nat with (S (length (F s) - S (length pre))) in G by lia. cbn [firstn] in G.
      split; [exact G|]. rewrite G in E. rewrite <- app_assoc in E. cbn [Datatypes.app] in E. apply app_inv_head in E. injection E as E. rewrite G in E. congruence. }
    exists s. split; [lia|]. split; [apply HF; rewrite E1; apply in_elt|]. intros w Hw. rewrite E2 in Hw. apply in_app_or in Hw as [Hw|Hw].
    + exists s. split; [lia|]. apply HF. rewrite E1. apply in_or_app. right. right. exact Hw.
    + apply in_flat_map in Hw as (r' & Hr & Hw). apply in_seq in Hr. exists r'. split; [lia|]. apply HF, Hw.
  - assert (flat_map F (seq (S s) n) = skipn (length (F s)) pre ++ v :: rest) as E1.
    { pose proof (f_equal (skipn (length (F s))) E) as G. rewrite skipn_app, Nat.sub_diag, skipn_O, skipn_all in G. cbn [Datatypes.app] in G. rewrite skipn_app in G.
      replace (length (F s) - length pre)%nat with O in G by lia. exact G. }
    apply IH in E1 as (r & Hr & K). exists r. split; [lia|exact K].
Qed.

Definition row_key (ms : list cmeta) (v : nat * nat * nat) (r : nat) : Prop :=
  let '(i, y, x) := v in exists m, nth_error ms i = Some m /\ (0 < cm_vs m)%nat /\ (y / cm_vs m = r)%nat /\ (x < cm_w m)%nat.
Lemma mcu_row_key r : forall ms i0 v, In v (mcu_row r i0 ms) -> exists i y x m, v = ((i0 + i)%nat, y, x) /\ nth_error ms i = Some m /\ (0 < cm_vs m)%nat /\ (y / cm_vs m = r)%nat /\ (x < cm_w m)%nat.
Proof.
  induction ms as [|m ms IH]; intros i0 v H; cbn [mcu_row] in H; [contradiction|]. apply in_app_or in H as [H|H].
  - unfold comp_rows in H. apply in_flat_map in H as (iy & Hy & H). apply in_seq in Hy. apply in_map_iff in H as (x & <- & Hx). apply in_seq in Hx.
    exists O, (r * cm_vs m + iy)%nat, x, m. rewrite Nat.add_0_r. split; [reflexivity|]. split; [reflexivity|]. split; [lia|]. split; [|lia].
    rewrite Nat.add_comm, Nat.div_add by lia. rewrite Nat.div_small by lia. reflexivity.
  - apply IH in H as (i & y & x & m' & -> & E & H). exists (S i), y, x, m'. rewrite Nat.add_succ_r. auto.
Qed.
Lemma visits_sorted ms pre v rest : visits ms = pre ++ v :: rest -> exists r, (r < mcu_rows ms)%nat /\ row_key ms v r /\ forall w, In w rest -> exists r', (r <= r')%nat /\ row_key ms w r'.
Proof.
  intros E. unfold visits in E.
  assert (HF : forall r v, In v (mcu_row r 0 ms) -> row_key ms v r).
  { intros r w H. apply mcu_row_key in H as (i & y & x & m & -> & H). cbn [row_key plus]. exists m. exact H. }
  destruct (flat_sorted _ _ HF _ _ _ _ _ E) as (r & Hr & K). exists r. split; [lia|exact K].
Qed.
(** Above the row of the first block to come all blocks have been passed. *)
Lemma passed_above ms pre vs i m j : visits ms = pre ++ vs -> nth_error ms i = Some m -> Z.of_nat j < row_of ms vs * Z.of_nat (cm_vs m) * Z.of_nat (cm_w m) -> passed ms vs i j.
Proof.
  intros E Em Hj. destruct vs as [|[[i0 y0] x0] rest]; [intros y x m' []|]. cbn [row_of] in Hj.
  destruct (visits_sorted _ _ _ _ E) as (r & _ & (m0 & E0 & V0 & R0 & Wx) & K). rewrite E0, R0 in Hj.
  assert (K' : forall w, In w ((i0, y0, x0) :: rest) -> exists r', (r <= r')%nat /\ row_key ms w r').
  { intros w [<-|H]; [|apply K, H]. exists r. split; [lia|]. exists m0. repeat split; auto. }
  intros y x m' H Em'. apply K' in H as (r' & Hr & m2 & E2 & V2 & R2 & _). assert (m' = m2) by congruence. assert (m = m2) by congruence. subst m' m. 
  pose proof (Nat.div_mod y (cm_vs m2) ltac:(lia)). assert (r * cm_vs m2 <= y)%nat by nia. assert (j < r * cm_vs m2 * cm_w m2)%nat by lia. nia.
Qed.
Lemma row_of_bound ms pre vs : visits ms = pre ++ vs -> (0 < mcu_rows ms)%nat -> 0 <= row_of ms vs < Z.of_nat (mcu_rows ms).
Proof.
  intros E H. destruct vs as [|[[i0 y0] x0] rest]; cbn [row_of]; [lia|].
  destruct (visits_sorted _ _ _ _ E) as (r & Hr & (m0 & E0 & V0 & R0 & _) & _). rewrite E0, R0. lia.
Qed.
