(** Groups: the windows of the groups partition every component; arrays that are read and written in parts. *)
From Verif Require Import Base CoefModel CoefProofs DCProofs GroupModel.
From Coq Require Import Permutation.

(** * Arrays *)

Lemma gather_length {A} (p : list A) : forall cs vs, gather p cs = Some vs -> length vs = length cs.
Proof.
  induction cs as [|c cs IH]; intros vs E; cbn [gather] in E; [injection E as <-; reflexivity|].
  apply obind_some in E. destruct E as (a & _ & E). apply obind_some in E. destruct E as (t & Et & E). injection E as <-. cbn [length]. f_equal. apply IH, Et.
Qed.
Lemma gather_total {A} (p : list A) : forall cs, (forall c, In c cs -> (c < length p)%nat) -> exists vs, gather p cs = Some vs.
Proof.
  induction cs as [|c cs IH]; intros H; cbn [gather]; [eauto|]. destruct (nth_error p c) as [a|] eqn:E; [|apply nth_error_None in E; specialize (H c (or_introl eq_refl)); lia].
  destruct IH as [vs E2]; [intros; apply H; right; assumption|]. rewrite E2. unfold obind. eauto.
Qed.
Lemma gather_in {A} (p : list A) : forall cs vs, gather p cs = Some vs -> forall c, In c cs -> (c < length p)%nat.
Proof.
  induction cs as [|c cs IH]; intros vs E d Hd; [destruct Hd|]. cbn [gather] in E. apply obind_some in E. destruct E as (a & Ea & E).
  apply obind_some in E. destruct E as (t & Et & E). destruct Hd as [<-|Hd]; [apply nth_error_Some; congruence|eapply IH; eassumption].
Qed.
Lemma gather_nth {A} (p : list A) : forall cs vs, gather p cs = Some vs -> forall k c, nth_error cs k = Some c -> nth_error vs k = nth_error p c.
Proof.
  induction cs as [|c cs IH]; intros vs E k d Hk; [destruct k; discriminate|]. cbn [gather] in E. apply obind_some in E. destruct E as (a & Ea & E).
  apply obind_some in E. destruct E as (t & Et & E). injection E as <-. destruct k; cbn [nth_error] in *; [injection Hk as <-; congruence|eapply IH; eassumption].
Qed.
Lemma gather_ext {A} (p q : list A) cs : (forall c, In c cs -> nth_error p c = nth_error q c) -> gather p cs = gather q cs.
Proof.
  induction cs as [|c cs IH]; intros H; cbn [gather]; [reflexivity|]. rewrite (H c (or_introl eq_refl)). rewrite IH by (intros; apply H; right; assumption). reflexivity.
Qed.
Lemma gather_map {A B} (f : A -> B) (p : list A) : forall cs vs, gather p cs = Some vs -> gather (map f p) cs = Some (map f vs).
Proof.
  induction cs as [|c cs IH]; intros vs E; cbn [gather] in *; [injection E as <-; reflexivity|]. apply obind_some in E. destruct E as (a & Ea & E).
  apply obind_some in E. destruct E as (t & Et & E). injection E as <-. rewrite (map_nth_error f _ _ Ea), (IH _ Et). reflexivity.
Qed.
Lemma gather_app {A} (p : list A) : forall a b va vb, length va = length a -> gather p (a ++ b) = Some (va ++ vb) -> gather p a = Some va /\ gather p b = Some vb.
Proof.
  induction a as [|c a IH]; intros b va vb L E; destruct va as [|v va]; cbn [length] in L; try lia; cbn [app gather] in *; [auto|].
  apply obind_some in E. destruct E as (x & Ex & E). apply obind_some in E. destruct E as (t & Et & E). injection E as -> ->.
  destruct (IH b va vb ltac:(lia) Et) as [E1 E2]. rewrite Ex, E1. auto.
Qed.

Lemma scatter_length {A} : forall cs (p : list A) vs q, scatter p cs vs = Some q -> length q = length p.
Proof.
  induction cs as [|c cs IH]; intros p vs q E; destruct vs as [|v vs]; cbn [scatter] in E; try discriminate; [injection E as <-; reflexivity|].
  destruct (Nat.ltb_spec c (length p)); [|discriminate]. rewrite (IH _ _ _ E). apply upd_length.
Qed.
Lemma scatter_other {A} : forall cs (p : list A) vs q, scatter p cs vs = Some q -> forall d, ~ In d cs -> nth_error q d = nth_error p d.
Proof.
  induction cs as [|c cs IH]; intros p vs q E d Hd; destruct vs as [|v vs]; cbn [scatter] in E; try discriminate; [injection E as <-; reflexivity|].
  destruct (Nat.ltb_spec c (length p)); [|discriminate]. rewrite (IH _ _ _ E) by (intros X; apply Hd; right; exact X).
  apply nth_error_upd_other. intros ->. apply Hd. left. reflexivity.
Qed.
Lemma scatter_total {A} : forall cs (p : list A) vs, length vs = length cs -> (forall c, In c cs -> (c < length p)%nat) -> exists q, scatter p cs vs = Some q.
Proof.
  induction cs as [|c cs IH]; intros p vs L H; destruct vs as [|v vs]; cbn [length] in L; try lia; cbn [scatter]; [eauto|].
  pose proof (H c (or_introl eq_refl)). destruct (Nat.ltb_spec c (length p)); [|lia]. apply IH; [lia|]. intros d Hd. rewrite upd_length. apply H. right. exact Hd.
Qed.
Lemma scatter_gather {A} : forall cs (p : list A) vs q, NoDup cs -> scatter p cs vs = Some q -> gather q cs = Some vs.
Proof.
  induction cs as [|c cs IH]; intros p vs q N E; destruct vs as [|v vs]; cbn [scatter] in E; try discriminate; [reflexivity|].
  apply NoDup_cons_iff in N. destruct N as [N1 N2]. destruct (Nat.ltb_spec c (length p)); [|discriminate]. cbn [gather]. rewrite (IH _ _ _ N2 E).
  rewrite (scatter_other _ _ _ _ E c N1), nth_error_upd_same by assumption. reflexivity.
Qed.
(** Writing the values an array [t] has there. *)
Lemma scatter_from {A} (t : list A) : forall cs p vs, gather t cs = Some vs -> length p = length t -> exists q, scatter p cs vs = Some q /\ length q = length p /\
  (forall d, In d cs -> nth_error q d = nth_error t d) /\ (forall d, ~ In d cs -> nth_error q d = nth_error p d).
Proof.
  intros cs p vs E L. destruct (scatter_total cs p vs (gather_length _ _ _ E)) as [q Eq]; [intros c Hc; rewrite L; exact (gather_in _ _ _ E c Hc)|].
  exists q. split; [exact Eq|]. split; [exact (scatter_length _ _ _ _ Eq)|]. split; [|apply (scatter_other _ _ _ _ Eq)].
  revert p vs q E L Eq. induction cs as [|c cs IH]; intros p vs q E L Eq d Hd; [destruct Hd|]. cbn [gather] in E. apply obind_some in E. destruct E as (a & Ea & E).
  apply obind_some in E. destruct E as (r & Er & E). injection E as <-. cbn [scatter] in Eq. destruct (Nat.ltb_spec c (length p)); [|discriminate].
  destruct (in_dec Nat.eq_dec d cs) as [I|I]; [apply (IH (upd p c a) r q Er); [rewrite upd_length; exact L|exact Eq|exact I]|].
  destruct Hd as [->|Hd]; [|contradiction]. rewrite (scatter_other _ _ _ _ Eq d I), nth_error_upd_same by assumption. symmetry. exact Ea.
Qed.

(** * A partition of 0 .. N-1 into the cells of n groups *)
Record partition (N n : nat) (cells : nat -> list nat) : Prop := {
  pa_in : forall g c, (g < n)%nat -> In c (cells g) -> (c < N)%nat;
  pa_some : forall c, (c < N)%nat -> exists g, (g < n)%nat /\ In c (cells g);
  pa_one : forall g g' c, (g < n)%nat -> (g' < n)%nat -> In c (cells g) -> In c (cells g') -> g = g';
  pa_nodup : forall g, (g < n)%nat -> NoDup (cells g) }.

Lemma NoDup_app_intro {A} (a b : list A) : NoDup a -> NoDup b -> (forall x, In x a -> ~ In x b) -> NoDup (a ++ b).
Proof.
  intros Na Nb H. induction Na as [|x a Hx Na IH]; [exact Nb|]. cbn [app]. constructor.
  - rewrite in_app_iff. intros [I|I]; [contradiction|]. exact (H x (or_introl eq_refl) I).
  - apply IH. intros y Hy. apply H. right. exact Hy.
Qed.

Lemma partition_permutation N n cells : partition N n cells -> Permutation (concat (map cells (seq 0 n))) (seq 0 N).
Proof.
  intros P. apply NoDup_Permutation.
  - assert (forall k m, (k + m <= n)%nat -> NoDup (concat (map cells (seq k m)))) as G; [|apply G; lia].
    intros k m. revert k. induction m as [|m IH]; intros k H; cbn [seq map concat]; [constructor|]. apply NoDup_app_intro.
    + apply (pa_nodup _ _ _ P). lia.
    + apply IH. lia.
    + intros c H1 H2. apply in_concat in H2. destruct H2 as (l & Hl & H2). apply in_map_iff in Hl. destruct Hl as (g & <- & Hg). apply in_seq in Hg.
      pose proof (pa_one _ _ _ P k g c ltac:(lia) ltac:(lia) H1 H2). lia.
  - apply seq_NoDup.
  - intros c. rewrite in_concat, in_seq. split.
    + intros (l & Hl & H). apply in_map_iff in Hl. destruct Hl as (g & <- & Hg). apply in_seq in Hg. pose proof (pa_in _ _ _ P g c ltac:(lia) H). lia.
    + intros H. destruct (pa_some _ _ _ P c ltac:(lia)) as (g & Hg & I). exists (cells g). split; [apply in_map, in_seq; lia|exact I].
Qed.

(** Values for every group make up an array. *)
Lemma partition_assemble {A} (d : A) N n cells (vals : nat -> list A) : partition N n cells -> (forall g, (g < n)%nat -> length (vals g) = length (cells g)) ->
  exists t, length t = N /\ forall g, (g < n)%nat -> gather t (cells g) = Some (vals g).
Proof.
  intros P L. pose proof (partition_permutation _ _ _ P) as PM.
  assert (NoDup (concat (map cells (seq 0 n)))) as ND by (eapply Permutation_NoDup; [symmetry; exact PM|apply seq_NoDup]).
  assert (forall l, (forall g, In g l -> (g < n)%nat) -> length (concat (map vals l)) = length (concat (map cells l))) as LL.
  { induction l as [|g l IH]; intros H; [reflexivity|]. cbn [map concat]. rewrite !app_length, L by (apply H; left; reflexivity). rewrite IH; [reflexivity|]. intros; apply H; right; assumption. }
  destruct (scatter_total (concat (map cells (seq 0 n))) (repeat d N) (concat (map vals (seq 0 n)))) as [t E].
  { apply LL. intros g Hg. apply in_seq in Hg. lia. }
  { intros c Hc. rewrite repeat_length. apply (Permutation_in _ PM) in Hc. apply in_seq in Hc. lia. }
  exists t. split; [rewrite (scatter_length _ _ _ _ E); apply repeat_length|].
  pose proof (scatter_gather _ _ _ _ ND E) as G.
  assert (forall m k, (k + m <= n)%nat -> gather t (concat (map cells (seq k m))) = Some (concat (map vals (seq k m))) -> forall g, (k <= g < k + m)%nat -> gather t (cells g) = Some (vals g)) as H.
  { induction m as [|m IH]; intros k Hk Hg g Hr; [lia|]. cbn [seq map concat] in Hg. apply gather_app in Hg; [|apply L; lia]. destruct Hg as [G1 G2].
    destruct (Nat.eq_dec g k) as [->|Ne]; [exact G1|]. apply (IH (S k)); [lia|exact G2|lia]. }
  intros g Hg. apply (H n 0%nat); [lia|exact G|lia].
Qed.

(** * The windows *)

(** Dimensions and factors as the tests at the beginning leave them. *)
Record fits (L : layout) (dim : nat) : Prop := {
  fi_dim : (1 <= dim)%nat; fi_h : (1 <= ly_max_h L)%nat; fi_v : (1 <= ly_max_v L)%nat;
  fi_divh : (dim mod ly_max_h L = 0)%nat; fi_divv : (dim mod ly_max_v L = 0)%nat;
  fi_cols : (1 <= ly_cols L)%nat; fi_rows : (1 <= ly_rows L)%nat }.

Lemma group_count_spec n dim x : (1 <= dim)%nat -> ((x < group_count n dim)%nat <-> (x * dim < n)%nat).
Proof.
  intros H. unfold group_count. split.
  - intros Hx. assert (x * dim + dim <= n + dim - 1)%nat; [|lia].
    pose proof (Nat.mul_div_le (n + dim - 1) dim ltac:(lia)). nia.
  - intros Hx. apply Nat.div_le_lower_bound; [lia|]. lia.
Qed.

Lemma mul_div_exact a b q : (1 <= b)%nat -> (a * (b * q) / b = a * q)%nat.
Proof. intros H. replace (a * (b * q))%nat with (a * q * b)%nat by lia. apply Nat.div_mul. lia. Qed.
Lemma div_iff u d x : (1 <= d)%nat -> ((u / d = x)%nat <-> (x * d <= u < x * d + d)%nat).
Proof.
  intros H. pose proof (Nat.div_mod u d ltac:(lia)) as E. pose proof (Nat.mod_upper_bound u d ltac:(lia)) as M. split; [intros <-; nia|]. intros Hu.
  destruct (Nat.lt_trichotomy (u / d) x) as [C|[C|C]]; [nia|exact C|nia].
Qed.

Lemma index_lt x y a b : (x < a)%nat -> (y < b)%nat -> (y * a + x < a * b)%nat.
Proof. nia. Qed.
Lemma index_parts x y a : (x < a)%nat -> ((y * a + x) mod a = x /\ (y * a + x) / a = y)%nat.
Proof. intros H. rewrite Nat.add_comm, Nat.mod_add, Nat.div_add by lia. rewrite Nat.mod_small, Nat.div_small by exact H. auto. Qed.
Lemma factor_eq m a b : (1 <= m)%nat -> (m * a = m * b)%nat -> a = b.
Proof. nia. Qed.

Section Win.
  Context (L : layout) (dim : nat) (F : fits L dim) (s : nat * nat) (Hs : (1 <= fst s)%nat /\ (1 <= snd s)%nat).

  Lemma window_some idx : (idx < groups L dim)%nat ->
    exists qh qv x y, dim = (ly_max_h L * qh)%nat /\ dim = (ly_max_v L * qv)%nat /\ (1 <= qh)%nat /\ (1 <= qv)%nat /\ x = (idx mod across L dim)%nat /\ y = (idx / across L dim)%nat /\
      (x * qh < ly_cols L)%nat /\ (y * qv < ly_rows L)%nat /\
      group_window L dim idx s = Some (mkWin (x * (fst s * qh)) (y * (snd s * qv)) (fst s * (Nat.min (x * qh + qh) (ly_cols L) - x * qh)) (snd s * (Nat.min (y * qv + qv) (ly_rows L) - y * qv))).
  Proof.
    intros Hi. destruct F as [Fd Fh Fv Dh Dv Fc Fr].
    assert (EH : dim = (ly_max_h L * (dim / ly_max_h L))%nat) by (pose proof (Nat.div_mod dim (ly_max_h L) ltac:(lia)); lia).
    assert (EV : dim = (ly_max_v L * (dim / ly_max_v L))%nat) by (pose proof (Nat.div_mod dim (ly_max_v L) ltac:(lia)); lia).
    assert (Ha : (1 <= across L dim)%nat) by (unfold across; apply group_count_spec; [exact Fd|nia]).
    set (x := (idx mod across L dim)%nat). set (y := (idx / across L dim)%nat).
    assert (Hx : (x < across L dim)%nat) by (apply Nat.mod_upper_bound; lia).
    assert (Hy : (y < down L dim)%nat) by (apply Nat.div_lt_upper_bound; [lia|exact Hi]).
    set (qh := (dim / ly_max_h L)%nat) in *. set (qv := (dim / ly_max_v L)%nat) in *.
    assert (Qh : (1 <= qh)%nat) by (destruct qh; lia). assert (Qv : (1 <= qv)%nat) by (destruct qv; lia).
    assert (X : (x * qh < ly_cols L)%nat).
    { unfold across in Hx. apply group_count_spec in Hx; [|exact Fd]. rewrite EH in Hx at 1. nia. }
    assert (Y : (y * qv < ly_rows L)%nat).
    { unfold down in Hy. apply group_count_spec in Hy; [|exact Fd]. rewrite EV in Hy at 1. nia. }
    exists qh, qv, x, y. repeat (split; [first [assumption|reflexivity]|]). unfold group_window. fold x y. cbv zeta.
    assert (fst s * dim / ly_max_h L = fst s * qh)%nat as -> by (rewrite EH; apply mul_div_exact; exact Fh).
    assert (snd s * dim / ly_max_v L = snd s * qv)%nat as -> by (rewrite EV; apply mul_div_exact; exact Fv).
    assert (Nat.min (x * (fst s * qh) + fst s * qh) (ly_cols L * fst s) = fst s * Nat.min (x * qh + qh) (ly_cols L))%nat as ->.
    { rewrite <- Nat.mul_min_distr_l. f_equal; lia. }
    assert (Nat.min (y * (snd s * qv) + snd s * qv) (ly_rows L * snd s) = snd s * Nat.min (y * qv + qv) (ly_rows L))%nat as ->.
    { rewrite <- Nat.mul_min_distr_l. f_equal; lia. }
    assert (x * (fst s * qh) = fst s * (x * qh))%nat as -> by lia. assert (y * (snd s * qv) = snd s * (y * qv))%nat as -> by lia.
    assert (x * qh < Nat.min (x * qh + qh) (ly_cols L))%nat by (apply Nat.min_glb_lt; lia).
    assert (y * qv < Nat.min (y * qv + qv) (ly_rows L))%nat by (apply Nat.min_glb_lt; lia).
    destruct (Nat.ltb_spec (fst s * Nat.min (x * qh + qh) (ly_cols L)) (fst s * (x * qh))); [nia|].
    destruct (Nat.ltb_spec (snd s * Nat.min (y * qv + qv) (ly_rows L)) (snd s * (y * qv))); [nia|]. cbn [orb].
    rewrite !Nat.mul_sub_distr_l. reflexivity.
  Qed.

  Definition cells_of (idx : nat) : list nat := match group_window L dim idx s with Some w => window_cells (ly_cols L * fst s) w | None => [] end.

  Lemma in_cells idx c : (idx < groups L dim)%nat -> exists qh qv, dim = (ly_max_h L * qh)%nat /\ dim = (ly_max_v L * qv)%nat /\ (1 <= qh)%nat /\ (1 <= qv)%nat /\
    (In c (cells_of idx) <-> (c < ly_cols L * fst s * (ly_rows L * snd s))%nat /\
      ((c mod (ly_cols L * fst s)) / (fst s * qh) = idx mod across L dim)%nat /\ ((c / (ly_cols L * fst s)) / (snd s * qv) = idx / across L dim)%nat).
  Proof.
    intros Hi. destruct (window_some idx Hi) as (qh & qv & x & y & Eh & Ev & Qh & Qv & Ex & Ey & X & Y & E). exists qh, qv. repeat (split; [assumption|]).
    unfold cells_of. rewrite E. rewrite <- Ex, <- Ey. unfold window_cells. cbn [wn_x wn_y wn_w wn_h]. destruct Hs as [Hs1 Hs2]. destruct F as [_ _ _ _ _ Fc Fr].
    set (W := (ly_cols L * fst s)%nat). assert (HW : (1 <= W)%nat) by (unfold W; nia).
    rewrite !div_iff by nia. rewrite in_flat_map. split.
    - intros (r & Hr & Hc). apply in_map_iff in Hc. destruct Hc as (k & <- & Hk). apply in_seq in Hr. apply in_seq in Hk.
      assert (B1 : (x * (fst s * qh) + k < W)%nat) by (unfold W; pose proof (Nat.le_min_r (x * qh + qh) (ly_cols L)); nia).
      assert (B2 : (y * (snd s * qv) + r < ly_rows L * snd s)%nat) by (pose proof (Nat.le_min_r (y * qv + qv) (ly_rows L)); nia).
      rewrite <- Nat.add_assoc.
      rewrite (Nat.add_comm ((y * (snd s * qv) + r) * W)), Nat.mod_add, Nat.div_add by lia. rewrite Nat.mod_small, Nat.div_small by exact B1. cbn [Nat.add].
      split; [nia|]. pose proof (Nat.le_min_l (x * qh + qh) (ly_cols L)). pose proof (Nat.le_min_l (y * qv + qv) (ly_rows L)). split; nia.
    - intros (Hc & Hx & Hy). pose proof (Nat.div_mod c W ltac:(lia)) as DM. pose proof (Nat.mod_upper_bound c W ltac:(lia)) as MU.
      assert (DU : (c / W < ly_rows L * snd s)%nat) by (apply Nat.div_lt_upper_bound; lia).
      exists (c / W - y * (snd s * qv))%nat. split.
      + apply in_seq. split; [lia|]. cbn [Nat.add]. destruct (Nat.min_spec (y * qv + qv) (ly_rows L)) as [[? ->]|[? ->]]; nia.
      + apply in_map_iff. exists (c mod W - x * (fst s * qh))%nat. split.
        { replace (y * (snd s * qv) + (c / W - y * (snd s * qv)))%nat with (c / W)%nat by lia. rewrite (Nat.mul_comm (c / W) W). lia. } apply in_seq. split; [lia|]. cbn [Nat.add].
        assert (MW : (c mod W < ly_cols L * fst s)%nat) by exact MU. clearbody W. clear - MW Hx X.
        destruct (Nat.min_spec (x * qh + qh) (ly_cols L)) as [[? ->]|[? ->]].
        { replace (x * qh + qh - x * qh)%nat with qh by lia. lia. }
        { rewrite Nat.mul_sub_distr_l. lia. }
  Qed.

  Lemma cells_nodup idx : (idx < groups L dim)%nat -> NoDup (cells_of idx).
  Proof.
    intros Hi. destruct (window_some idx Hi) as (qh & qv & x & y & Eh & Ev & Qh & Qv & Ex & Ey & X & Y & E).
    unfold cells_of. rewrite E. unfold window_cells. cbn [wn_x wn_y wn_w wn_h]. set (W := (ly_cols L * fst s)%nat).
    set (w := (fst s * (Nat.min (x * qh + qh) (ly_cols L) - x * qh))%nat). set (fx := (x * (fst s * qh))%nat).
    assert (B1 : (fx + w <= W)%nat) by (unfold fx, w, W; pose proof (Nat.le_min_r (x * qh + qh) (ly_cols L)); nia).
    generalize (snd s * (Nat.min (y * qv + qv) (ly_rows L) - y * qv))%nat as h. generalize (y * (snd s * qv))%nat as fy. intros fy h.
    assert (forall h k, NoDup (flat_map (fun r => map (fun k => ((fy + r) * W + fx + k)%nat) (seq 0 w)) (seq k h)) /\ (forall c, In c (flat_map (fun r => map (fun k => ((fy + r) * W + fx + k)%nat) (seq 0 w)) (seq k h)) -> ((fy + k) * W <= c)%nat)) as G; [|apply (G h 0%nat)].
    clear h. induction h as [|h IH]; intros k; cbn [seq flat_map]; [split; [constructor|intros c []]|]. destruct (IH (S k)) as [N1 N2]. split.
    - apply NoDup_app_intro; [|exact N1|].
      + apply FinFun.Injective_map_NoDup; [intros a b Hab; lia|apply seq_NoDup].
      + intros c H1 H2. apply in_map_iff in H1. destruct H1 as (u & <- & Hu). apply in_seq in Hu. specialize (N2 _ H2). nia.
    - intros c H. apply in_app_or in H. destruct H as [H|H]; [apply in_map_iff in H; destruct H as (u & <- & Hu); nia|]. specialize (N2 _ H). nia.
  Qed.

  Theorem windows_partition : partition (ly_cols L * fst s * (ly_rows L * snd s)) (groups L dim) cells_of.
  Proof.
    constructor.
    - intros g c Hg Hc. destruct (in_cells g c Hg) as (qh & qv & _ & _ & _ & _ & I). apply I, Hc.
    - intros c Hc. destruct F as [Fd Fh Fv Dh Dv Fc Fr]. destruct Hs as [Hs1 Hs2].
      assert (EH : dim = (ly_max_h L * (dim / ly_max_h L))%nat) by (pose proof (Nat.div_mod dim (ly_max_h L) ltac:(lia)); lia).
      assert (EV : dim = (ly_max_v L * (dim / ly_max_v L))%nat) by (pose proof (Nat.div_mod dim (ly_max_v L) ltac:(lia)); lia).
      set (qh := (dim / ly_max_h L)%nat) in *. set (qv := (dim / ly_max_v L)%nat) in *.
      assert (Qh : (1 <= qh)%nat) by (destruct qh; lia). assert (Qv : (1 <= qv)%nat) by (destruct qv; lia).
      set (W := (ly_cols L * fst s)%nat) in *. assert (HW : (1 <= W)%nat) by (unfold W; nia).
      pose proof (Nat.mod_upper_bound c W ltac:(lia)) as MU. assert (DU : (c / W < ly_rows L * snd s)%nat) by (apply Nat.div_lt_upper_bound; lia).
      set (x := ((c mod W) / (fst s * qh))%nat). set (y := ((c / W) / (snd s * qv))%nat).
      assert (P1 : (1 <= fst s * qh)%nat) by (clear - Hs1 Qh; nia). assert (P2 : (1 <= snd s * qv)%nat) by (clear - Hs2 Qv; nia).
      pose proof (proj1 (div_iff (c mod W) (fst s * qh) x P1) eq_refl) as Hx. pose proof (proj1 (div_iff (c / W) (snd s * qv) y P2) eq_refl) as Hy.
      assert (MW : (c mod W < ly_cols L * fst s)%nat) by exact MU.
      assert (X0 : (x * qh < ly_cols L)%nat) by (clear - MW Hx Hs1; nia). assert (Y0 : (y * qv < ly_rows L)%nat) by (clear - DU Hy Hs2; nia).
      assert (X : (x < across L dim)%nat) by (apply group_count_spec; [exact Fd|]; rewrite EH at 1; clear - X0 Fh; nia).
      assert (Y : (y < down L dim)%nat) by (apply group_count_spec; [exact Fd|]; rewrite EV at 1; clear - Y0 Fv; nia).
      exists (y * across L dim + x)%nat. assert (G : (y * across L dim + x < groups L dim)%nat) by (apply index_lt; assumption). split; [exact G|].
      destruct (in_cells _ c G) as (qh' & qv' & Eh' & Ev' & _ & _ & I). assert (qh' = qh) as -> by (apply (factor_eq (ly_max_h L)); [exact Fh|rewrite <- Eh'; exact EH]). assert (qv' = qv) as -> by (apply (factor_eq (ly_max_v L)); [exact Fv|rewrite <- Ev'; exact EV]). apply I.
      fold W. split; [exact Hc|]. destruct (index_parts x y (across L dim) X) as [-> ->]. auto.
    - intros g g' c Hg Hg' Hc Hc'. destruct (in_cells g c Hg) as (qh & qv & Eh & Ev & Q1 & Q2 & I). destruct (in_cells g' c Hg') as (qh' & qv' & Eh' & Ev' & _ & _ & I').
      destruct F as [Fd Fh Fv Dh Dv Fc Fr]. assert (qh' = qh) as -> by (apply (factor_eq (ly_max_h L)); [exact Fh|rewrite <- Eh'; exact Eh]). assert (qv' = qv) as -> by (apply (factor_eq (ly_max_v L)); [exact Fv|rewrite <- Ev'; exact Ev]). apply I in Hc. apply I' in Hc'. destruct Hc as (_ & X1 & Y1). destruct Hc' as (_ & X2 & Y2).
      assert (Ha : (across L dim <> 0)%nat) by (intros Z0; unfold groups in Hg; rewrite Z0 in Hg; cbn in Hg; lia).
      rewrite (Nat.div_mod g (across L dim) Ha), (Nat.div_mod g' (across L dim) Ha). congruence.
    - intros g Hg. apply cells_nodup, Hg.
  Qed.
End Win.
