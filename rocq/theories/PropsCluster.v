(** C43: clustering of the context histograms. *)
From Verif Require Import Base EntropyModel EntropyProofs CoefModel CoefProofs HistModel HistProofs PropsHist ClusterModel ClusterProofs PropsCoef.
From Coq Require Import Sorting.Sorted.

(** * Specification *)

(** How often symbol [j] was emitted in context [h]. *)
Fixpoint occurrences (its : list citem) (h j : nat) : Z :=
  match its with
  | [] => 0
  | CSym h' s :: r => (if (Z.of_nat h =? h') && (Z.of_nat j =? s) then 1 else 0) + occurrences r h j
  | _ :: r => occurrences r h j
  end.

(** The sum, over the contexts mapped to cluster [k], of their counts of symbol [j]. *)
Fixpoint mapped_sum (ins : list (list Z)) (cmap : list nat) (k j : nat) : Z :=
  match ins, cmap with
  | h :: r, c :: t => (if (c =? k)%nat then nth j h 0 else 0) + mapped_sum r t k j
  | _, _ => 0
  end.

(** Group boundaries: strictly increasing, from 0. *)
Definition groups_ok (offs : list nat) (num_bands : nat) : Prop :=
  match offs with [] => True | o :: _ => o = O end /\ StronglySorted lt offs /\ Forall (fun o => (o <= num_bands)%nat) offs.

Lemma mapped_sum_csum ins cmap k j : mapped_sum ins cmap k j = csum ins cmap k j.
Proof. revert cmap. induction ins as [|h ins IH]; intros cmap; destruct cmap; cbn [mapped_sum csum]; try reflexivity; rewrite IH; reflexivity. Qed.

Theorem C43_clustering :
  forall (C : costs) (ins : list (list Z)) (num_bands : nat) (offs : list nat) (maxh : nat),
    (1 <= maxh)%nat -> length ins = (9 * num_bands)%nat -> Forall (fun h => length h = 18%nat) ins -> groups_ok offs num_bands ->
    exists out cmap, cluster_histograms C ins 9 num_bands offs maxh = Some (out, cmap) /\
      length cmap = length ins /\ (length out <= maxh)%nat /\ (forall c, In c cmap -> (c < length out)%nat) /\
      (forall k h, nth_error out k = Some h -> In k cmap /\ length h = 18%nat /\ forall j, nth j h 0 = mapped_sum ins cmap k j) /\
      (* clusters are numbered in the order of their first use *)
      (forall i c d, nth_error cmap i = Some c -> (d < c)%nat -> exists i', (i' < i)%nat /\ nth_error cmap i' = Some d).
Proof.
  intros C ins nb offs maxh Hm L F (G1 & G2 & G3).
  destruct (cluster_histograms_ok C ins 9 nb offs maxh Hm L F G1 G2 G3) as (out & cmap & E & A1 & A2 & A3 & A4 & A5).
  exists out, cmap. split; [exact E|]. split; [exact A1|]. split; [exact A2|]. split; [exact A3|]. split; [|exact A5].
  intros k h Hk. destruct (A4 k h Hk) as (B1 & B2 & B3). split; [exact B1|]. split; [exact B2|]. intros j. rewrite mapped_sum_csum. apply B3.
Qed.
Print Assumptions C43_clustering.

Lemma collect_spec n : forall its hs, Forall (cshape (Z.of_nat n)) its -> length hs = n -> Forall (fun h => length h = 18%nat) hs ->
  exists hs', collect its hs = Some hs' /\ length hs' = n /\ Forall (fun h => length h = 18%nat) hs' /\
    forall h j, nth j (nth h hs' []) 0 = nth j (nth h hs []) 0 + occurrences its h j.
Proof.
  induction its as [|it its IH]; intros hs Sh L F; cbn [collect occurrences].
  - exists hs. split; [reflexivity|]. split; [exact L|]. split; [exact F|]. intros; lia.
  - destruct it as [p b|h s|m v]; try (apply IH; [exact (Forall_inv_tail Sh)|assumption|assumption]).
    pose proof (Forall_inv Sh) as Hs. cbn [cshape] in Hs. unfold add_code.
    assert (exists c, nth_error hs (Z.to_nat h) = Some c) as [c Ec] by (apply nth_error_in; lia).
    assert (zget hs h = Some c) as -> by (unfold zget; destruct (Z.ltb_spec h 0); [lia|exact Ec]). unfold obind at 1 2.
    assert (length c = 18%nat) as Lc by (rewrite Forall_forall in F; apply F, (nth_error_In _ _ Ec)).
    assert (exists v, nth_error c (Z.to_nat s) = Some v) as [v Ev] by (apply nth_error_in; lia).
    assert (zget c s = Some v) as -> by (unfold zget; destruct (Z.ltb_spec s 0); [lia|exact Ev]).
    set (c' := upd c (Z.to_nat s) (v + 1)). set (hs1 := upd hs (Z.to_nat h) c').
    destruct (IH hs1 (Forall_inv_tail Sh)) as (hs' & E & L' & F' & V).
    { unfold hs1. rewrite upd_length. exact L. }
    { unfold hs1. apply upd_Forall; [exact F|]. unfold c'. rewrite upd_length. exact Lc. }
    exists hs'. split; [exact E|]. split; [exact L'|]. split; [exact F'|]. intros h0 j. rewrite V. unfold hs1.
    destruct (Z.eqb_spec (Z.of_nat h0) h) as [E0|N0]; cbn [andb].
    + replace (Z.to_nat h) with h0 by lia. rewrite nth_upd_same by lia. replace (nth h0 hs []) with c by (symmetry; apply nth_error_nth; replace h0 with (Z.to_nat h) by lia; exact Ec).
      unfold c'. destruct (Z.eqb_spec (Z.of_nat j) s) as [E1|N1].
      * replace (Z.to_nat s) with j by lia. rewrite nth_upd_same by lia. replace (nth j c 0) with v by (symmetry; apply nth_error_nth; replace j with (Z.to_nat s) by lia; exact Ev). lia.
      * rewrite nth_upd_other by lia. lia.
    + rewrite nth_upd_other by lia. lia.
Qed.

Lemma occurrences_pos its h s : 0 <= h -> 0 <= s -> In (CSym h s) its -> 0 < occurrences its (Z.to_nat h) (Z.to_nat s).
Proof.
  intros Hh Hs. assert (forall l a b, 0 <= occurrences l a b) as Nn.
  { induction l as [|it l IH]; intros a b; cbn [occurrences]; [lia|]. destruct it; try apply IH. specialize (IH a b). destruct (_ && _); lia. }
  induction its as [|it its IH]; intros I; [destruct I|]. cbn [occurrences]. destruct I as [->|I].
  - rewrite !Z2Nat.id, !Z.eqb_refl by assumption. cbn [andb]. specialize (Nn its (Z.to_nat h) (Z.to_nat s)). lia.
  - specialize (IH I). destruct it; try exact IH. destruct (_ && _); lia.
Qed.

Lemma mapped_sum_ge ins cmap k i h j : Forall (Forall (fun x => 0 <= x)) ins -> nth_error ins i = Some h -> nth_error cmap i = Some k ->
  nth j h 0 <= mapped_sum ins cmap k j.
Proof.
  intros F. revert cmap i. induction F as [|x ins Hx F IH]; intros cmap i Ei Ec; destruct i; destruct cmap as [|c cmap]; cbn [nth_error mapped_sum] in *; try discriminate.
  - injection Ei as ->. injection Ec as ->. rewrite Nat.eqb_refl. rewrite mapped_sum_csum. pose proof (csum_nonneg ins cmap k j F). lia.
  - specialize (IH cmap i Ei Ec). assert (0 <= nth j x 0). { destruct (nth_in_or_default j x 0) as [I|E]; [rewrite Forall_forall in Hx; apply Hx, I|lia]. } destruct (c =? k)%nat; lia.
Qed.

(** Whatever the clustering and rounding decisions are, the normalised histogram of the cluster of a
    context gives a positive frequency to every symbol emitted in that context. *)
Theorem C43_every_symbol_can_be_coded :
  forall (C : costs) (its : list citem) (num_bands : nat) (offs : list nat),
    Forall (cshape (9 * Z.of_nat num_bands)) its -> groups_ok offs num_bands ->
    exists out cmap, entropy_codes C its num_bands offs = Some (out, cmap) /\
      length cmap = (9 * num_bands)%nat /\ (length out <= 256)%nat /\ (forall c, In c cmap -> (c < length out)%nat) /\
      Forall (fun h => length h = 18%nat /\ Forall (fun c => 0 <= c) h) out /\
      forall tables,
        (forall k h, nth_error out k = Some h -> (exists s, 0 < nth s h 0) ->
           exists rnd up1 up2 omit cs, (forall n, 0 <= rnd n <= 1024) /\ normalize_counts rnd up1 up2 h = Some (cs, omit) /\ nth_error tables k = Some cs) ->
        codable (map Z.of_nat cmap) tables its.
Proof.
  intros C its nb offs Sh G. unfold entropy_codes.
  destruct (collect_spec (9 * nb) its (repeat hzero (9 * nb))) as (hs & E & L & F & V).
  { eapply cshapes_mono; [|exact Sh]. lia. }
  { apply repeat_length. }
  { apply Forall_forall. intros x Hx. apply repeat_spec in Hx. subst x. reflexivity. }
  rewrite E. unfold obind. destruct (C43_clustering C hs nb offs 256 ltac:(lia) L F G) as (out & cmap & Ec & A1 & A2 & A3 & A4 & _).
  assert (forall h j, nth j (nth h hs []) 0 = occurrences its h j) as V'.
  { intros h j. rewrite V. replace (nth j (nth h (repeat hzero (9 * nb)) []) 0) with 0; [lia|].
    destruct (nth_in_or_default h (repeat hzero (9 * nb)) []) as [I| ->]; [apply repeat_spec in I; rewrite I; unfold hzero; symmetry; apply nth_repeat|destruct j; reflexivity]. }
  assert (forall l a b, 0 <= occurrences l a b) as Nn.
  { induction l as [|it l IH]; intros a b; cbn [occurrences]; [lia|]. destruct it; try apply IH. specialize (IH a b). destruct (_ && _); lia. }
  assert (Forall (Forall (fun x => 0 <= x)) hs) as Fn.
  { apply Forall_forall. intros h Hh. apply In_nth_error in Hh. destruct Hh as [i Hi]. apply Forall_forall. intros x Hx. apply In_nth_error in Hx. destruct Hx as [j Hj].
    pose proof (V' i j) as W. rewrite (nth_error_nth hs i [] Hi) in W. rewrite (nth_error_nth h j 0 Hj) in W. rewrite W. apply Nn. }
  exists out, cmap. split; [exact Ec|]. split; [lia|]. split; [exact A2|]. split; [exact A3|]. split.
  { apply Forall_forall. intros h Hh. apply In_nth_error in Hh. destruct Hh as [k Hk]. destruct (A4 k h Hk) as (_ & B2 & B3). split; [exact B2|].
    apply Forall_forall. intros x Hx. apply In_nth_error in Hx. destruct Hx as [j Hj]. pose proof (B3 j) as W. rewrite (nth_error_nth h j 0 Hj) in W. rewrite W, mapped_sum_csum.
    apply csum_nonneg, Fn. }
  intros tables T h s Hin.
  assert (0 <= h < 9 * Z.of_nat nb /\ 0 <= s <= 17) as [Rh Rs] by (rewrite Forall_forall in Sh; exact (Sh _ Hin)).
  destruct (nth_error_in cmap (Z.to_nat h) ltac:(lia)) as (k & Ek). pose proof (A3 k (nth_error_In _ _ Ek)) as Hk.
  destruct (nth_error_in out k Hk) as (hk & Ehk). destruct (A4 k hk Ehk) as (_ & Lk & Vk).
  destruct (nth_error_in hs (Z.to_nat h) ltac:(lia)) as (hh & Ehh).
  assert (0 < nth (Z.to_nat s) hk 0) as Pos.
  { rewrite Vk. pose proof (mapped_sum_ge hs cmap k (Z.to_nat h) hh (Z.to_nat s) Fn Ehh Ek) as Ge.
    pose proof (V' (Z.to_nat h) (Z.to_nat s)) as W. rewrite (nth_error_nth hs (Z.to_nat h) [] Ehh) in W. rewrite W in Ge.
    pose proof (occurrences_pos its h s ltac:(lia) ltac:(lia) Hin). lia. }
  destruct (T k hk Ehk (ex_intro (fun s0 => 0 < nth s0 hk 0) _ Pos)) as (rnd & up1 & up2 & omit & cs & Hr & En & Et).
  assert (Forall (fun c => 0 <= c) hk) as Fk.
  { apply Forall_forall. intros x Hx. apply In_nth_error in Hx. destruct Hx as [j Hj]. pose proof (Vk j) as W. rewrite (nth_error_nth hk j 0 Hj) in W. rewrite W, mapped_sum_csum.
    apply csum_nonneg, Fn. }
  destruct (C16_normalised_histogram rnd up1 up2 hk cs omit Lk Fk Hr (ex_intro (fun s0 => 0 < nth s0 hk 0) _ Pos) En) as (N1 & N2 & N3 & N4 & _).
  exists cs. split; [|split; [split; [exact N3|exact N2]|apply N4; exact Pos]].
  unfold table_of. assert (zget (map Z.of_nat cmap) h = Some (Z.of_nat k)) as ->.
  { unfold zget. destruct (Z.ltb_spec h 0); [lia|]. apply map_nth_error, Ek. }
  unfold obind, zget. destruct (Z.ltb_spec (Z.of_nat k) 0); [lia|]. rewrite Nat2Z.id. exact Et.
Qed.
Print Assumptions C43_every_symbol_can_be_coded.

(** * Non-vacuity *)

(** Costs that always want to merge, and costs that never do. *)
Definition merge_all : costs := mkCosts sumZ (fun a b c d => 0) (fun _ _ _ => true) (fun _ _ => -1) (fun d => d <? 0) (fun h o c => sumZ o).
Definition merge_none : costs := mkCosts sumZ (fun a b c d => 0) (fun _ _ _ => true) (fun _ _ => 1) (fun d => d <? 0) (fun h o c => Z.abs (nth 0 o 0 - nth 0 h 0)).
Definition ex_hists : list (list Z) := map (fun i => Z.of_nat i :: 1 :: repeat 0 16) (seq 0 27).

Example C43_case_merge : cluster_histograms merge_all ex_hists 9 3 [0; 1; 2]%nat 256 = Some (match cluster_histograms merge_all ex_hists 9 3 [0; 1; 2]%nat 256 with Some x => x | None => ([], []) end) /\
  option_map (fun x => (length (fst x), snd x)) (cluster_histograms merge_all ex_hists 9 3 [0; 1; 2]%nat 256) = Some (3%nat, repeat 0 9 ++ repeat 1 9 ++ repeat 2 9)%nat.
Proof. split; vm_compute; reflexivity. Qed.
Example C43_case_limit : option_map (fun x => length (fst x)) (cluster_histograms merge_none ex_hists 9 3 [0; 1; 2]%nat 4) = Some 2%nat /\
  option_map (fun x => length (fst x)) (cluster_histograms merge_none ex_hists 9 3 [0; 1; 2]%nat 256) = Some 27%nat.
Proof. split; vm_compute; reflexivity. Qed.
Example C43_case_groups : groups_ok [0; 1; 2]%nat 3 /\ Forall (cshape (9 * Z.of_nat 3)) [CSym 5 17; CBit 128 true; CSym 26 0; CBits 3 5].
Proof. split; [split; [reflexivity|split; [repeat constructor|repeat constructor]]|repeat constructor; cbn; lia]. Qed.
