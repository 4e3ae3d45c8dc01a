(** Code lengths written as run-length entries are read back. *)
From Verif Require Import Base BitModel BitProofs JBitModel JHuffModel JHuffProofs HistProofs HuffModel HuffProofs3 HTreeModel HTreeProofs2 HStoreModel.

(** What the reader makes of an entry: lengths so far, previous length, repeat count and
    repeated length. *)
Definition est : Type := (list Z * Z * Z * Z)%type.
Definition estep (st : est) (e : Z * Z) : est :=
  let '(acc, prev, rp, rl) := st in
  let '(c, x) := e in
  if c <? 16 then (acc ++ [c], if c =? 0 then prev else c, 0, rl)
  else
    let nl := if c =? 16 then prev else 0 in
    let old := if rl =? nl then rp else 0 in
    let base := if 0 <? old then (old - 2) * 2 ^ (c - 14) else old in
    let rep := base + x + 3 in
    (acc ++ repeat nl (Z.to_nat (rep - old)), prev, rep, nl).
Definition ent_ok (e : Z * Z) : Prop := 0 <= fst e < 18 /\ (16 <= fst e -> 0 <= snd e < 2 ^ (fst e - 14)).
Definition e_acc (st : est) : list Z := fst (fst (fst st)).

Lemma lit_ent v : 0 <= v < 16 -> Forall ent_ok [(v, 0)].
Proof. intros H. constructor; [|constructor]. split; cbn [fst snd]; lia. Qed.

(** * The repetition digits *)

Lemma chain_ok c nl fuel : (c = 16 \/ c = 17) -> forall r acc prev rp rl, nl = (if c =? 16 then prev else 0) ->
  (rl <> nl \/ rp = 0) -> 0 <= r < 2 ^ Z.of_nat fuel -> (1 <= fuel)%nat ->
  fold_left estep (map (fun x => (c, x)) (rev (rep_digits fuel (2 ^ (c - 14)) r))) (acc, prev, rp, rl)
  = (acc ++ repeat nl (Z.to_nat (r + 3)), prev, r + 3, nl)
  /\ Forall ent_ok (map (fun x => (c, x)) (rev (rep_digits fuel (2 ^ (c - 14)) r))).
Proof.
  intros Hc. set (b := 2 ^ (c - 14)). assert (Hb : 4 <= b) by (unfold b; destruct Hc; subst c; cbn; lia).
  induction fuel as [|fuel IH]; intros r acc prev rp rl Enl Hrl Hr Hf; [lia|]. cbn [rep_digits].
  pose proof (Z.div_mod r b ltac:(lia)) as DM. pose proof (Z.mod_pos_bound r b ltac:(lia)) as MB.
  pose proof (Z.div_pos r b ltac:(lia) ltac:(lia)) as DP. set (q := r / b) in *. set (x := r mod b) in *.
  assert (EO : ent_ok (c, x)) by (split; cbn [fst snd]; [destruct Hc; lia|intros _; fold b; lia]).
  assert (C16 : c <? 16 = false) by (destruct Hc; subst c; reflexivity).
  cbn [rev]. rewrite map_app, fold_left_app. destruct (Z.eqb_spec q 0) as [Q0|Q0].
  - cbn [rev map fold_left app]. split; [|constructor; [exact EO|constructor]]. unfold estep. rewrite C16, <- Enl. fold b.
    assert (OLD : (if rl =? nl then rp else 0) = 0) by (destruct (Z.eqb_spec rl nl); lia). rewrite OLD. change (0 <? 0) with false. cbv iota.
    replace (0 + x + 3) with (r + 3) by lia. rewrite Z.sub_0_r. reflexivity.
  - assert (Q1 : 0 <= q - 1 < 2 ^ Z.of_nat fuel).
    { split; [lia|]. rewrite pow2_S in Hr. nia. }
    assert (F1 : (1 <= fuel)%nat) by (destruct fuel; [cbn in Q1; lia|lia]).
    destruct (IH (q - 1) acc prev rp rl Enl Hrl Q1 F1) as [E FO]. rewrite E. cbn [map fold_left].
    split; [|apply Forall_app; split; [exact FO|constructor; [exact EO|constructor]]].
    unfold estep. rewrite C16, <- Enl. fold b. rewrite Z.eqb_refl. replace (q - 1 + 3) with (q + 2) by lia.
    destruct (Z.ltb_spec 0 (q + 2)); [|lia]. replace ((q + 2 - 2) * b + x + 3) with (r + 3) by lia.
    assert (q + 2 <= r + 3) by nia.
    rewrite <- app_assoc, <- repeat_app.
    replace (Z.to_nat (q + 2) + Z.to_nat (r + 3 - (q + 2)))%nat with (Z.to_nat (r + 3)) by lia. reflexivity.
Qed.

Lemma lits_ok v k : 0 <= v < 16 -> forall acc prev rp rl, 
  fold_left estep (repeat (v, 0) k) (acc, prev, rp, rl)
  = (acc ++ repeat v k, if (v =? 0) || (k =? 0)%nat then prev else v, if (k =? 0)%nat then rp else 0, rl)
  /\ Forall ent_ok (repeat (v, 0) k).
Proof.
  intros Hv. induction k as [|k IH]; intros acc prev rp rl.
  - cbn [repeat fold_left Nat.eqb]. rewrite app_nil_r, orb_true_r. split; [reflexivity|constructor].
  - cbn [repeat fold_left]. unfold estep at 2. destruct (Z.ltb_spec v 16); [|lia].
    destruct (IH (acc ++ [v]) (if v =? 0 then prev else v) 0 rl) as [E FO]. split.
    + rewrite E, <- app_assoc. cbn [app Nat.eqb]. rewrite orb_false_r. destruct (v =? 0), (k =? 0)%nat; reflexivity.
    + constructor; [|exact FO]. split; cbn [fst snd]; lia.
Qed.

(** State of the reader before the lengths [l]. *)
Definition einv (prev rp rl : Z) (l : list Z) : Prop :=
  1 <= prev <= 15 /\ (rp = 0 \/ rl <> prev \/ hd (-1) l <> prev) /\ (rp = 0 \/ rl <> 0 \/ hd (-1) l <> 0).

Lemma zeros_ok k acc prev rp rl : 1 <= k < 2 ^ 60 -> 1 <= prev <= 15 -> (rp = 0 \/ rl <> 0) ->
  exists rp' rl', fold_left estep (write_zeros k) (acc, prev, rp, rl) = (acc ++ repeat 0 (Z.to_nat k), prev, rp', rl')
    /\ Forall ent_ok (write_zeros k) /\ (rp' = 0 \/ rl' = 0 /\ 3 <= k).
Proof.
  intros Hk Hp Hr. unfold write_zeros.
  assert (P : exists a k2 rp2, (if k =? 11 then ([(0, 0)], k - 1) else ([], k)) = (a, k2) /\ 
     fold_left estep a (acc, prev, rp, rl) = (acc ++ repeat 0 (Z.to_nat (k - k2)), prev, rp2, rl)
     /\ Forall ent_ok a /\ (rp2 = 0 \/ rl <> 0) /\ 1 <= k2 <= k).
  { destruct (Z.eqb_spec k 11) as [->|].
    - exists [(0, 0)], 10, 0. split; [reflexivity|]. split; [reflexivity|]. split; [apply lit_ent; lia|]. split; [auto|lia].
    - exists [], k, rp. split; [reflexivity|]. rewrite Z.sub_diag. cbn [fold_left Z.to_nat repeat]. rewrite app_nil_r.
      split; [reflexivity|]. split; [constructor|]. split; [exact Hr|lia]. }
  destruct P as (a & k2 & rp2 & -> & E1 & F1 & R2 & K2). rewrite fold_left_app, E1.
  destruct (Z.ltb_spec k2 3) as [H3|H3].
  - destruct (lits_ok 0 (Z.to_nat k2) ltac:(lia) (acc ++ repeat 0 (Z.to_nat (k - k2))) prev rp2 rl) as [E F].
    rewrite E. exists 0, rl. split; [|split; [apply Forall_app; auto|auto]].
    rewrite <- app_assoc, <- repeat_app. replace (Z.to_nat (k - k2) + Z.to_nat k2)%nat with (Z.to_nat k) by lia.
    rewrite Z.eqb_refl. cbn [orb]. destruct (Nat.eqb_spec (Z.to_nat k2) 0); [lia|reflexivity].
  - destruct (chain_ok 17 0 64 ltac:(auto) (k2 - 3) (acc ++ repeat 0 (Z.to_nat (k - k2))) prev rp2 rl eq_refl) as [E F].
    { destruct R2; [right; assumption|left; lia]. } { change (2 ^ Z.of_nat 64) with (2 ^ 60 * 16). lia. } { lia. }
    change (2 ^ (17 - 14)) with 8 in E, F. rewrite E. exists (k2 - 3 + 3), 0. split; [|split; [apply Forall_app; auto|right; lia]].
    rewrite <- app_assoc, <- repeat_app. replace (Z.to_nat (k - k2) + Z.to_nat (k2 - 3 + 3))%nat with (Z.to_nat k) by lia. reflexivity.
Qed.

Lemma reps_ok v k acc prev rp rl : 1 <= k < 2 ^ 60 -> 1 <= v <= 15 -> 1 <= prev <= 15 -> (rp = 0 \/ rl <> v \/ prev <> v) ->
  exists rp' rl', fold_left estep (write_reps prev v k) (acc, prev, rp, rl) = (acc ++ repeat v (Z.to_nat k), v, rp', rl')
    /\ Forall ent_ok (write_reps prev v k) /\ (rp' = 0 \/ rl' = v /\ 3 <= k).
Proof.
  intros Hk Hv Hp Hr. unfold write_reps.
  assert (P : exists a k2 rp2, (if prev =? v then ([], k) else ([(v, 0)], k - 1)) = (a, k2) /\ 
     fold_left estep a (acc, prev, rp, rl) = (acc ++ repeat v (Z.to_nat (k - k2)), v, rp2, rl)
     /\ Forall ent_ok a /\ (rp2 = 0 \/ rl <> v /\ k2 = k) /\ 0 <= k2 <= k /\ k - k2 <= 1 /\ (k2 = 0 -> rp2 = 0)).
  { destruct (Z.eqb_spec prev v) as [->|].
    - exists [], k, rp. split; [reflexivity|]. rewrite Z.sub_diag. cbn [fold_left Z.to_nat repeat]. rewrite app_nil_r.
      split; [reflexivity|]. split; [constructor|]. split; [tauto|]. lia.
    - exists [(v, 0)], (k - 1), 0. split; [reflexivity|]. split.
      + cbn [fold_left]. unfold estep. destruct (Z.ltb_spec v 16); [|lia]. destruct (Z.eqb_spec v 0); [lia|].
        replace (k - (k - 1)) with 1 by lia. reflexivity.
      + split; [apply lit_ent; lia|]. split; [auto|lia]. }
  destruct P as (a & k2 & rp2 & -> & E1 & F1 & R2 & K2 & K3 & K4).
  assert (P : exists b k3 rp3, (if k2 =? 7 then ([(v, 0)], k2 - 1) else ([], k2)) = (b, k3) /\ 
     fold_left estep b (acc ++ repeat v (Z.to_nat (k - k2)), v, rp2, rl) = (acc ++ repeat v (Z.to_nat (k - k3)), v, rp3, rl)
     /\ Forall ent_ok b /\ (rp3 = 0 \/ rl <> v /\ k3 = k) /\ 0 <= k3 <= k /\ (k3 = 0 -> rp3 = 0)).
  { destruct (Z.eqb_spec k2 7) as [->|].
    - exists [(v, 0)], 6, 0. split; [reflexivity|]. split.
      + cbn [fold_left]. unfold estep. destruct (Z.ltb_spec v 16); [|lia]. destruct (Z.eqb_spec v 0); [lia|].
        rewrite <- app_assoc. change [v] with (repeat v 1). rewrite <- repeat_app.
        replace (Z.to_nat (k - 7) + 1)%nat with (Z.to_nat (k - 6)) by lia. reflexivity.
      + split; [apply lit_ent; lia|]. split; [auto|lia].
    - exists [], k2, rp2. split; [reflexivity|]. split; [reflexivity|]. split; [constructor|]. split; [exact R2|]. lia. }
  destruct P as (b & k3 & rp3 & -> & E2 & F2 & R3 & K5 & K6). rewrite !fold_left_app, E1, E2.
  destruct (Z.ltb_spec k3 3) as [H3|H3].
  - destruct (lits_ok v (Z.to_nat k3) ltac:(lia) (acc ++ repeat v (Z.to_nat (k - k3))) v rp3 rl) as [E F].
    rewrite E. exists 0, rl. split; [|split; [repeat (apply Forall_app; split; auto)|auto]].
    rewrite <- app_assoc, <- repeat_app. replace (Z.to_nat (k - k3) + Z.to_nat k3)%nat with (Z.to_nat k) by lia.
    destruct (Nat.eqb_spec (Z.to_nat k3) 0) as [Z0|]; [rewrite K6 by lia|]; destruct ((v =? 0) || _)%bool; reflexivity.
  - destruct (chain_ok 16 v 64 ltac:(auto) (k3 - 3) (acc ++ repeat v (Z.to_nat (k - k3))) v rp3 rl eq_refl) as [E F].
    { tauto. } { change (2 ^ Z.of_nat 64) with (2 ^ 60 * 16). lia. } { lia. }
    change (2 ^ (16 - 14)) with 4 in E, F. rewrite E. exists (k3 - 3 + 3), v. split; [|split; [repeat (apply Forall_app; split; auto)|right; lia]].
    rewrite <- app_assoc, <- repeat_app. replace (Z.to_nat (k - k3) + Z.to_nat (k3 - 3 + 3))%nat with (Z.to_nat k) by lia. reflexivity.
Qed.

(** * All lengths *)

Lemma run_len_spec v l : (run_len v l <= length l)%nat /\ firstn (run_len v l) l = repeat v (run_len v l) /\ hd (-1) (skipn (run_len v l) l) <> v \/ v < 0.
Proof.
  destruct (Z.le_gt_cases 0 v) as [H|H]; [left|right; lia]. induction l as [|x l (I1 & I2 & I3)]; [cbn; split; [lia|]; split; [reflexivity|lia]|].
  cbn [run_len]. destruct (Z.eqb_spec x v) as [->|].
  - cbn [length firstn repeat skipn]. split; [lia|]. split; [rewrite I2; reflexivity|exact I3].
  - cbn [length firstn repeat skipn hd]. split; [lia|]. split; [reflexivity|assumption].
Qed.

Lemma write_lens_ok nz z fuel : forall l acc prev rp rl, (length l <= fuel)%nat -> Z.of_nat (length l) < 2 ^ 59 -> Forall (fun d => 0 <= d <= 15) l ->
  einv prev rp rl l ->
  e_acc (fold_left estep (write_lens fuel nz z prev l) (acc, prev, rp, rl)) = acc ++ l
  /\ Forall ent_ok (write_lens fuel nz z prev l).
Proof.
  induction fuel as [|fuel IH]; intros l acc prev rp rl Hf Hs F (P & I1 & I2).
  - destruct l; [|cbn [length] in Hf; lia]. cbn. rewrite app_nil_r. auto.
  - destruct l as [|v l]; [cbn; rewrite app_nil_r; auto|]. cbn [write_lens]. cbn [length hd] in *.
    pose proof (Forall_inv F) as Hv. cbv beta in Hv. pose proof (Forall_inv_tail F) as Fl.
    set (k := if (negb (v =? 0) && nz || (v =? 0) && z)%bool then run_len v l else 0%nat).
    assert (K : (k <= length l)%nat /\ firstn k l = repeat v k /\ (k = 0%nat \/ hd (-1) (skipn k l) <> v) /\ ((2 <= k)%nat -> hd (-1) (skipn k l) <> v)).
    { destruct (run_len_spec v l) as [(A & B & C)|]; [|lia]. unfold k. destruct (negb (v =? 0) && nz || (v =? 0) && z)%bool.
      - split; [exact A|]. split; [exact B|]. auto.
      - split; [lia|]. split; [reflexivity|]. split; [auto|lia]. }
    destruct K as (K1 & K2 & K3 & K4).
    assert (EL : forall acc, (acc ++ repeat v (Z.to_nat (Z.of_nat k + 1))) ++ skipn k l = acc ++ v :: l).
    { intros a. rewrite <- app_assoc. f_equal. replace (Z.to_nat (Z.of_nat k + 1)) with (S k) by lia. cbn [repeat app]. f_equal.
      rewrite <- K2. apply firstn_skipn. }
    assert (Fk : Forall (fun d => 0 <= d <= 15) (skipn k l)).
    { apply Forall_forall. intros d Hd. rewrite Forall_forall in Fl. apply Fl. rewrite <- (firstn_skipn k l). apply in_or_app. right. exact Hd. }
    assert (Lk : length (skipn k l) = (length l - k)%nat) by apply skipn_length.
    change (2 ^ 60) with (2 * 2 ^ 59) in *.
    destruct (Z.eqb_spec v 0) as [->|Nv].
    + destruct (zeros_ok (Z.of_nat k + 1) acc prev rp rl) as (rp' & rl' & E & FO & R'); [change (2 ^ 60) with (2 * 2 ^ 59); lia|lia|lia|].
      rewrite fold_left_app, E.
      destruct (IH (skipn k l) (acc ++ repeat 0 (Z.to_nat (Z.of_nat k + 1))) prev rp' rl') as [E2 FO2]; [lia|lia|exact Fk| |].
      * split; [exact P|]. split; [destruct R' as [R'|R']; [auto|lia]|]. destruct R' as [R'|[R' R3]]; [auto|]. right; right. apply K4. lia.
      * split; [rewrite E2; apply EL|apply Forall_app; auto].
    + destruct (reps_ok v (Z.of_nat k + 1) acc prev rp rl) as (rp' & rl' & E & FO & R'); [change (2 ^ 60) with (2 * 2 ^ 59); lia|lia|lia|lia|].
      rewrite fold_left_app, E.
      destruct (IH (skipn k l) (acc ++ repeat v (Z.to_nat (Z.of_nat k + 1))) v rp' rl') as [E2 FO2]; [lia|lia|exact Fk| |].
      * split; [lia|]. split; [destruct R' as [R'|[R' R3]]; [auto|right; right; apply K4; lia]|]. destruct R' as [R'|[R' R3]]; [auto|right; left; lia].
      * split; [rewrite E2; apply EL|apply Forall_app; auto].
Qed.

(** * Each entry adds to the lengths *)

Lemma estep_grows e acc prev rp rl : ent_ok e -> (rp = 0 \/ 3 <= rp) ->
  exists tl acc' prev' rp' rl', estep (acc, prev, rp, rl) e = (acc', prev', rp', rl') /\ acc' = acc ++ tl /\ tl <> [] /\ (rp' = 0 \/ 3 <= rp').
Proof.
  intros [H1 H2] Hr. destruct e as [c x]. cbn [fst snd] in *. unfold estep. destruct (Z.ltb_spec c 16) as [Hc|Hc].
  - exists [c]. do 4 eexists. split; [reflexivity|]. split; [reflexivity|]. split; [discriminate|auto].
  - specialize (H2 Hc). set (nl := if c =? 16 then prev else 0). set (old := if rl =? nl then rp else 0).
    assert (HO : old = 0 \/ 3 <= old) by (unfold old; destruct (rl =? nl); lia).
    assert (HB : 4 <= 2 ^ (c - 14)) by (change 4 with (2 ^ 2); apply Z.pow_le_mono_r; lia).
    set (base := if 0 <? old then (old - 2) * 2 ^ (c - 14) else old).
    assert (HD : 1 <= base + x + 3 - old /\ 3 <= base + x + 3).
    { unfold base. destruct (Z.ltb_spec 0 old); [|lia]. nia. }
    exists (repeat nl (Z.to_nat (base + x + 3 - old))). do 4 eexists. split; [reflexivity|]. split; [reflexivity|].
    split; [|lia]. replace (Z.to_nat (base + x + 3 - old)) with (S (Z.to_nat (base + x + 3 - old - 1))) by lia. discriminate.
Qed.

Lemma fold_grows es : forall acc prev rp rl, Forall ent_ok es -> (rp = 0 \/ 3 <= rp) ->
  exists tl, e_acc (fold_left estep es (acc, prev, rp, rl)) = acc ++ tl /\ (length es <= length tl)%nat.
Proof.
  induction es as [|e es IH]; intros acc prev rp rl F Hr; [exists []; rewrite app_nil_r; cbn; auto|]. cbn [fold_left].
  destruct (estep_grows e acc prev rp rl (Forall_inv F) Hr) as (tl & acc' & prev' & rp' & rl' & E & -> & NE & Hr'). rewrite E.
  destruct (IH (acc ++ tl) prev' rp' rl' (Forall_inv_tail F) Hr') as (tl2 & E2 & L). exists (tl ++ tl2). split; [rewrite E2, app_assoc; reflexivity|].
  rewrite app_length. cbn [length]. destruct tl; [congruence|cbn [length]; lia].
Qed.
