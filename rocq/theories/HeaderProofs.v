(** The header section: round trip and validation. *)
From Verif Require Import Base CodesModel CodesProofs BitModel BitProofs Stream InternalsProofs4 HeaderModel.

(** * Byte parsers on a remaining list *)

Fixpoint bfull {A} (p : bprog A) (pos : nat) (l : list Z) : option (A * nat * list Z) :=
  match p with
  | BRet a => Some (a, pos, l)
  | BFail => None
  | BByte k => match l with [] => None | b :: r => bfull (k b) (S pos) r end
  | BBase128 k =>
      match decode_base128 l with
      | BOk v rest => bfull (k v) (pos + (length l - length rest)) rest
      | _ => None
      end
  | BBytes acc n k =>
      if n <=? Z.of_nat (length l)
      then bfull (k (acc ++ firstn (Z.to_nat n) l)) (pos + Z.to_nat n) (skipn (Z.to_nat n) l)
      else None
  | BPos k => bfull (k pos) pos l
  end.

Lemma skipn_all_add {A} (l : list A) a b x : skipn a l = x -> skipn (a + b) l = skipn b x.
Proof. intros <-. rewrite skipn_add. f_equal. lia. Qed.

Lemma brun_bfull {A} D : bytes D -> forall (p : bprog A) pos l, skipn pos D = l -> (pos <= length D)%nat ->
  match bfull p pos l with
  | Some (x, q, r) => brun D None p pos (length D) = RDone x q /\ skipn q D = r /\ (pos <= q <= length D)%nat
  | None => forall x q, brun D None p pos (length D) <> RDone x q
  end.
Proof.
  intros Hb. induction p as [a| |k IH|k IH|acc n k IH|k IH]; intros pos l Hl Hp; cbn [bfull brun].
  - split; [reflexivity|]. split; [exact Hl|lia].
  - intros; discriminate.
  - pose proof (f_equal (@length _) Hl) as L. rewrite skipn_length in L.
    destruct l as [|b r]; cbn [length] in L.
    + destruct (Nat.ltb_spec pos (length D)); [lia|]. intros; discriminate.
    + destruct (Nat.ltb_spec pos (length D)); [|lia].
      assert (E : nth pos D 0 = b). { rewrite <- (firstn_skipn pos D), Hl, app_nth2; rewrite firstn_length_le by lia; [|lia]. rewrite Nat.sub_diag. reflexivity. }
      rewrite E. specialize (IH b (S pos) r). replace (S pos) with (pos + 1)%nat in * by lia.
      specialize (IH ltac:(rewrite (skipn_all_add D pos 1 _ Hl); reflexivity) ltac:(lia)).
      destruct (bfull (k b) (pos + 1) r) as [[[x q] r']|]; [|exact IH]. destruct IH as (I1 & I2 & I3). repeat split; auto; lia.
  - assert (S : slice D pos (length D) = l).
    { unfold slice. rewrite Hl. apply firstn_all2. rewrite <- Hl, skipn_length. lia. }
    rewrite S. destruct (decode_base128 l) as [v rest| |] eqn:E; [|intros; discriminate|intros; discriminate].
    rewrite <- S in E. destruct (decode_slice_ok D pos (length D) v rest Hb ltac:(lia) E) as (_ & H & Hr).
    pose proof (f_equal (@length _) Hl) as L. rewrite skipn_length in L.
    replace (pos + (length l - length rest))%nat with (length D - length rest)%nat by lia.
    specialize (IH v (length D - length rest)%nat rest).
    specialize (IH ltac:(rewrite Hr at 2; unfold slice; rewrite firstn_all2; [reflexivity|rewrite skipn_length; lia]) ltac:(lia)).
    destruct (bfull (k v) _ rest) as [[[x q] r']|]; [|exact IH]. destruct IH as (I1 & I2 & I3). repeat split; auto; lia.
  - cbv zeta. pose proof (f_equal (@length _) Hl) as L. rewrite skipn_length in L.
    destruct (Z.leb_spec n (Z.of_nat (length l))).
    + replace (Z.to_nat (Z.min n (Z.of_nat (length D - pos)))) with (Z.to_nat n) by lia.
      destruct (Z.leb_spec (n - Z.of_nat (Z.to_nat n)) 0); [|lia].
      assert (S : slice D pos (pos + Z.to_nat n) = firstn (Z.to_nat n) l).
      { unfold slice. rewrite Hl. f_equal. lia. }
      rewrite S. specialize (IH (acc ++ firstn (Z.to_nat n) l) (pos + Z.to_nat n)%nat _ (skipn_all_add D pos (Z.to_nat n) _ Hl) ltac:(lia)).
      destruct (bfull _ _ (skipn (Z.to_nat n) l)) as [[[x q] r']|]; [|exact IH]. destruct IH as (I1 & I2 & I3). repeat split; auto; lia.
    + replace (Z.to_nat (Z.min n (Z.of_nat (length D - pos)))) with (length D - pos)%nat by lia.
      destruct (Z.leb_spec (n - Z.of_nat (length D - pos)) 0); [lia|]. intros; discriminate.
  - apply IH; assumption.
Qed.

Lemma bfull_base128 {A} (k : Z -> bprog A) pos v r : 0 <= v < 2 ^ 63 ->
  bfull (BBase128 k) pos (encode_base128 v ++ r) = bfull (k v) (pos + length (encode_base128 v)) r.
Proof.
  intros H. cbn [bfull]. rewrite base128_roundtrip by lia. f_equal. rewrite app_length. lia.
Qed.

Lemma bfull_base128_fix {A} (k : Z -> bprog A) pos v n r : (1 <= n <= 9)%nat -> 0 <= v < 2 ^ (7 * Z.of_nat n) ->
  bfull (BBase128 k) pos (encode_base128_fix v n ++ r) = bfull (k v) (pos + n) r.
Proof.
  intros Hn H. cbn [bfull]. rewrite base128_fix_roundtrip by lia. f_equal. rewrite app_length, encode_base128_fix_length. lia.
Qed.

Lemma bfull_tag {A} (k : Z -> bool -> list Z -> bprog A) met pos tag sec r : 1 <= tag <= 15 -> mem tag met = false ->
  bfull (read_tag met k) pos ((if sec : bool then section_marker tag else value_marker tag) :: r) = bfull (k tag sec (tag :: met)) (S pos) r.
Proof.
  intros Ht Hm. unfold read_tag. cbn [bfull].
  assert (E1 : Z.shiftr (if sec then section_marker tag else value_marker tag) 3 = tag).
  { rewrite Z.shiftr_div_pow2 by lia. change (2 ^ 3) with 8. unfold section_marker, value_marker. destruct sec; dlia. }
  assert (E2 : Z.land (if sec then section_marker tag else value_marker tag) 7 = if sec then 2 else 0).
  { change 7 with (Z.ones 3). rewrite Z.land_ones by lia. change (2 ^ 3) with 8. unfold section_marker, value_marker. destruct sec; dlia. }
  rewrite E1, E2, Hm. destruct (Z.eqb_spec tag 0); [lia|]. destruct (Z.ltb_spec 15 tag); [lia|]. cbn [orb].
  destruct sec; reflexivity.
Qed.

(** * Sampling code *)

Definition samp_ok (c : Z * Z) : Prop := 1 <= fst c <= 15 /\ 1 <= snd c <= 15.

Lemma frame_type_spec : forall n comps shift, (length comps <= n)%nat -> Forall samp_ok comps -> 0 <= shift -> shift + 8 * Z.of_nat n <= 32 ->
  exists w, frame_type_code comps n shift = w * 2 ^ shift /\ 0 <= w < 2 ^ (8 * Z.of_nat (length comps)) /\ decode_samplings (length comps) w = comps.
Proof.
  induction n as [|n IH]; intros comps shift Hl Hf Hs Hb.
  - destruct comps; [|cbn in Hl; lia]. exists 0. cbn. repeat split; lia.
  - destruct comps as [|[h v] r]; [exists 0; cbn; repeat split; lia|].
    pose proof (Forall_inv Hf) as Hc. pose proof (Forall_inv_tail Hf) as Hr. destruct Hc as [Hc1 Hc2]. cbn [fst snd] in Hc1, Hc2.
    cbn [length] in Hl. destruct (IH r (shift + 8) ltac:(lia) Hr ltac:(lia) ltac:(lia)) as (w & W1 & W2 & W3).
    assert (P : 0 < 2 ^ shift) by (apply Z.pow_pos_nonneg; lia).
    assert (P8 : 2 ^ (shift + 8) = 256 * 2 ^ shift) by (rewrite Z.pow_add_r by lia; change (2 ^ 8) with 256; lia).
    assert (P4 : 2 ^ (shift + 4) = 16 * 2 ^ shift) by (rewrite Z.pow_add_r by lia; change (2 ^ 4) with 16; lia).
    assert (P32 : 2 ^ (shift + 8) <= 2 ^ 32) by (apply Z.pow_le_mono_r; lia).
    exists ((v - 1) + 16 * (h - 1) + 256 * w). split; [|split].
    + cbn [frame_type_code]. rewrite W1, !Z.shiftl_mul_pow2 by lia.
      rewrite (Z.lor_comm ((h - 1) * _)), (lor_disjoint_add ((v - 1) * 2 ^ shift) (h - 1) (shift + 4)) by nia.
      rewrite Z.mod_small by nia. rewrite lor_disjoint_add by nia. nia.
    + cbn [length]. rewrite Nat2Z.inj_succ. replace (8 * Z.succ (Z.of_nat (length r))) with (8 + 8 * Z.of_nat (length r)) by lia.
      rewrite Z.pow_add_r by lia. change (2 ^ 8) with 256. nia.
    + cbn [length decode_samplings]. change 15 with (Z.ones 4). rewrite !Z.land_ones, !Z.shiftr_div_pow2 by lia. change (2 ^ 4) with 16.
      assert (Q1 : (v - 1 + 16 * (h - 1) + 256 * w) / 16 = (h - 1) + 16 * w) by dlia.
      assert (Q2 : (h - 1 + 16 * w) / 16 = w) by dlia.
      rewrite Q1, Q2, W3. f_equal. f_equal; dlia.
Qed.

Lemma frame_type_bound comps : (length comps <= 4)%nat -> Forall samp_ok comps -> 0 <= frame_type_code comps 4 0 < 2 ^ 32.
Proof.
  intros H1 H2. destruct (frame_type_spec 4 comps 0 H1 H2 ltac:(lia) ltac:(lia)) as (w & -> & H & _). rewrite Z.mul_1_r.
  assert (2 ^ (8 * Z.of_nat (length comps)) <= 2 ^ 32) by (apply Z.pow_le_mono_r; lia). lia.
Qed.

(** * The header's own items *)

Lemma header_items_S f send met vals : header_items (S f) send met vals =
  BPos (fun pos =>
    if Z.of_nat pos =? send then
      match header_finale met vals with Some h => BRet h | None => BFail end
    else
          read_tag met (fun tag is_section met' =>
            if is_section then
              BBase128 (fun len => BBytes [] len (fun _ => header_items f send met' vals))
            else
              BBase128 (fun v => header_items f send met' (upd vals (Z.to_nat tag) v)))).
Proof. reflexivity. Qed.

Lemma item_step f send met vals pos tag v r : 1 <= tag <= 15 -> mem tag met = false -> 0 <= v < 2 ^ 63 -> Z.of_nat pos <> send ->
  bfull (header_items (S f) send met vals) pos (encode_value tag v ++ r) =
  bfull (header_items f send (tag :: met) (upd vals (Z.to_nat tag) v)) (pos + length (encode_value tag v)) r.
Proof.
  intros Ht Hm Hv Hp. rewrite header_items_S. cbn [bfull]. destruct (Z.eqb_spec (Z.of_nat pos) send); [lia|].
  unfold encode_value. change ((value_marker tag :: encode_base128 v) ++ r) with ((if false then section_marker tag else value_marker tag) :: (encode_base128 v ++ r)).
  rewrite bfull_tag by assumption. rewrite bfull_base128 by assumption. f_equal. cbn [length]. lia.
Qed.

Lemma encode_base128_len_pos v : (1 <= length (encode_base128 v))%nat.
Proof. unfold encode_base128. cbn [encode_base128_loop length]. lia. Qed.

Definition header_payload (w h vc s : Z) : list Z :=
  encode_value 1 w ++ encode_value 2 h ++ encode_value 3 vc ++ encode_value 4 s.

Lemma header_payload_run w h vc s pos send r :
  0 <= w < 2 ^ 63 -> 0 <= h < 2 ^ 63 -> 0 <= vc < 2 ^ 63 -> 0 <= s < 2 ^ 63 ->
  send = Z.of_nat pos + Z.of_nat (length (header_payload w h vc s)) ->
  bfull (header_items 16 send [] (repeat 0 16)) pos (header_payload w h vc s ++ r) =
  match header_finale [4; 3; 2; 1] (0 :: w :: h :: vc :: s :: repeat 0 11) with
  | Some x => Some (x, (pos + length (header_payload w h vc s))%nat, r) | None => None end.
Proof.
  intros Hw Hh Hv Hs He. unfold header_payload in *. rewrite !app_length in He. rewrite <- !app_assoc.
  assert (P : forall t v, (2 <= length (encode_value t v))%nat).
  { intros t v. unfold encode_value. cbn [length]. pose proof (encode_base128_len_pos v). lia. }
  pose proof (P 1 w). pose proof (P 2 h). pose proof (P 3 vc). pose proof (P 4 s).
  rewrite item_step by (try lia; reflexivity). rewrite item_step by (try lia; reflexivity).
  rewrite item_step by (try lia; reflexivity). rewrite item_step by (try lia; reflexivity).
  rewrite header_items_S. cbn [bfull]. match goal with |- context [Z.of_nat ?p =? send] => destruct (Z.eqb_spec (Z.of_nat p) send); [|lia] end.
  change (upd (upd (upd (upd (repeat 0 16) (Z.to_nat 1) w) (Z.to_nat 2) h) (Z.to_nat 3) vc) (Z.to_nat 4) s) with (0 :: w :: h :: vc :: s :: repeat 0 11).
  destruct (header_finale _ _); cbn [bfull]; [|reflexivity]. do 3 f_equal. rewrite !app_length. lia.
Qed.

Lemma encode_base128_short v : 0 <= v < 2 ^ 35 -> (length (encode_base128 v) <= 5)%nat.
Proof.
  intros H. unfold encode_base128. cbn [encode_base128_loop]. rewrite !shr7.
  repeat match goal with |- context [if 0 <? ?x then _ else _] => destruct (Z.ltb_spec 0 x); cbn [length]; [|lia] end.
  exfalso. clear - H H0 H1 H2 H3 H4. revert H4. rewrite !Z.div_div by lia. intros H4.
  assert (v / (128 * (128 * (128 * (128 * 128)))) = 0) by (apply Z.div_small; change (2 ^ 35) with (128 * (128 * (128 * (128 * 128)))) in H; lia).
  match type of H4 with 0 < v / ?d => replace d with (128 * (128 * (128 * (128 * 128)))) in H4 by lia end. lia.
Qed.

Lemma encode_value_bytes tag v : 1 <= tag <= 15 -> 0 <= v -> bytes (encode_value tag v).
Proof.
  intros Ht Hv. unfold encode_value. constructor; [unfold value_marker, is_byte; lia|]. apply encode_base128_bytes. exact Hv.
Qed.

Lemma version_comp_val n version : (1 <= n <= 4)%nat -> 0 <= version < 8 ->
  Z.lor (Z.of_nat n - 1) (Z.shiftl version 2) = Z.of_nat n - 1 + version * 4.
Proof.
  intros Hn Hv. rewrite Z.shiftl_mul_pow2 by lia. change (2 ^ 2) with 4. apply (lor_disjoint_add (Z.of_nat n - 1) version 2); [lia|change (2 ^ 2) with 4; lia].
Qed.

(** The payload written for acceptable values, and its size. *)
Lemma encode_header_ok w h version comps p : 0 <= w <= 65535 -> 0 <= h <= 65535 -> 0 <= version < 8 -> Forall samp_ok comps ->
  encode_header w h version comps = Some p ->
  p = header_payload w h (Z.of_nat (length comps) - 1 + version * 4) (frame_type_code comps 4 0) /\
  (1 <= length comps <= 4)%nat /\ (length p <= 24)%nat /\ bytes p /\ (version mod 2 = 1 -> version = 1) /\ (version mod 2 = 0 -> w <> 0 /\ h <> 0).
Proof.
  intros Hw Hh Hv Hc E. unfold encode_header in E.
  replace (Z.land version 1) with (version mod 2) in E by (symmetry; apply (Z.land_ones version 1); lia).
  destruct (_ && negb (version =? 1)) eqn:X1; [discriminate|].
  match type of E with (if ?b then _ else _) = _ => destruct b eqn:X2; [discriminate|] end.
  destruct (negb (version / 8 =? 0)); [discriminate|].
  assert (L : (1 <= length comps <= 4)%nat) by lia.
  rewrite version_comp_val in E by lia.
  apply f_equal with (f := fun o => match o with Some z => z | None => [] end) in E. cbv iota beta in E. subst p.
  pose proof (frame_type_bound comps ltac:(lia) Hc) as F.
  split; [reflexivity|]. split; [lia|]. split.
  - rewrite !app_length. unfold encode_value. cbn [length].
    assert (2 ^ 32 < 2 ^ 35) by (apply Z.pow_lt_mono_r; lia). assert (65535 < 2 ^ 35) by (vm_compute; reflexivity).
    pose proof (encode_base128_short w ltac:(lia)). pose proof (encode_base128_short h ltac:(lia)).
    pose proof (encode_base128_short (Z.of_nat (length comps) - 1 + version * 4) ltac:(lia)). pose proof (encode_base128_short (frame_type_code comps 4 0) ltac:(lia)). lia.
  - split; [|split; [lia|]].
    + rewrite !bytes_app. repeat split; apply encode_value_bytes; lia.
    + intros Hm. rewrite Hm in X2. cbn in X2. lia.
Qed.

(** The whole section, marker included. *)
Lemma decode_header_run p r pos w h vc s : p = header_payload w h vc s -> (length p <= 24)%nat ->
  0 <= w < 2 ^ 63 -> 0 <= h < 2 ^ 63 -> 0 <= vc < 2 ^ 63 -> 0 <= s < 2 ^ 63 ->
  bfull decode_header pos (section_marker 2 :: encode_base128_fix (Z.of_nat (length p)) 1 ++ p ++ r) =
  match header_finale [4; 3; 2; 1] (0 :: w :: h :: vc :: s :: repeat 0 11) with
  | Some x => Some (x, (pos + 2 + length p)%nat, r) | None => None end.
Proof.
  intros Hp Hl Hw Hh Hv Hs. unfold decode_header.
  change (section_marker 2) with (if true then section_marker 2 else value_marker 2).
  rewrite bfull_tag by (try lia; reflexivity). change (negb (2 =? 2) || negb true) with false. cbv iota.
  rewrite bfull_base128_fix by (try lia; change (2 ^ (7 * Z.of_nat 1)) with 128; lia).
  cbn [bfull]. subst p. rewrite header_payload_run by (try assumption; lia).
  destruct (header_finale _ _); [|reflexivity]. do 3 f_equal. lia.
Qed.

Lemma header_finale_image w h version comps g : 1 <= w <= 65535 -> 1 <= h <= 65535 -> In version [0; 2; 4; 6] ->
  (1 <= length comps <= 4)%nat -> Forall samp_ok comps -> update_subsampling w h comps = Some g ->
  header_finale [4; 3; 2; 1] (0 :: w :: h :: (Z.of_nat (length comps) - 1 + version * 4) :: frame_type_code comps 4 0 :: repeat 0 11)
  = Some (HImage w h version (Z.land version 2 =? 0) comps g).
Proof.
  intros Hw Hh Hv Hl Hc Hg. unfold header_finale. change (mem 3 [4; 3; 2; 1]) with true. cbn [negb nth].
  set (vc := Z.of_nat (length comps) - 1 + version * 4).
  assert (Rv : 0 <= version <= 6) by (cbn in Hv; lia).
  assert (E1 : Z.shiftr vc 2 = version). { rewrite Z.shiftr_div_pow2 by lia. change (2 ^ 2) with 4. unfold vc. dlia. }
  assert (E2 : Z.land vc 3 = Z.of_nat (length comps) - 1).
  { change 3 with (Z.ones 2). rewrite Z.land_ones by lia. change (2 ^ 2) with 4. unfold vc. dlia. }
  rewrite E1, E2. destruct (frame_type_spec 4 comps 0 ltac:(lia) Hc ltac:(lia) ltac:(lia)) as (s & F & _ & F2).
  rewrite Z.mul_1_r in F. rewrite F. replace (Z.to_nat (Z.of_nat (length comps) - 1 + 1)) with (length comps) by lia. rewrite F2, Hg.
  assert (Hf : forallb (fun c => (fst c <=? 15) && (snd c <=? 15)) comps = true).
  { apply forallb_forall. intros c I. rewrite Forall_forall in Hc. destruct (Hc c I). lia. }
  rewrite Hf. change (mem 1 [4;3;2;1]) with true. change (mem 2 [4;3;2;1]) with true. change (mem 4 [4;3;2;1]) with true. cbn [negb].
  destruct (Z.eqb_spec w 0); [lia|]. destruct (Z.eqb_spec h 0); [lia|]. cbn [orb].
  destruct (Z.ltb_spec 65535 w); [lia|]. destruct (Z.ltb_spec 65535 h); [lia|]. cbn [orb].
  cbn in Hv. destruct Hv as [<-|[<-|[<-|[<-|[]]]]]; reflexivity.
Qed.

Lemma header_finale_fallback w h n s : (1 <= n <= 4)%nat ->
  header_finale [4; 3; 2; 1] (0 :: w :: h :: (Z.of_nat n - 1 + 1 * 4) :: s :: repeat 0 11) = Some HFallback.
Proof.
  intros Hn. unfold header_finale. change (mem 3 [4; 3; 2; 1]) with true. cbn [negb nth].
  replace (Z.shiftr (Z.of_nat n - 1 + 1 * 4) 2) with 1; [reflexivity|].
  rewrite Z.shiftr_div_pow2 by lia. change (2 ^ 2) with 4. dlia.
Qed.

(** * Accepted headers *)

Lemma max_samp_spec (f : Z * Z -> Z) comps : (forall m, 1 <= m -> let r := fold_left (fun m c => Z.max m (f c)) comps m in
  m <= r /\ (forall c, In c comps -> f c <= r) /\ (r = m \/ exists c, In c comps /\ r = f c)).
Proof.
  induction comps as [|c l IH]; intros m Hm; cbn [fold_left].
  - repeat split; try lia. intros c [].
  - destruct (IH (Z.max m (f c)) ltac:(lia)) as (I1 & I2 & I3). cbv zeta. split; [lia|]. split.
    + intros d [->|Hd]; [lia|apply I2; exact Hd].
    + destruct I3 as [->|(d & D1 & D2)].
      * destruct (Z.max_spec m (f c)) as [[? ->]|[? ->]]; [right; exists c; split; [left; reflexivity|reflexivity]|left; reflexivity].
      * right. exists d. split; [right; exact D1|exact D2].
Qed.

Lemma max_samp_bounds f comps : (forall c, In c comps -> 1 <= f c <= 15) -> comps <> [] ->
  1 <= max_samp f comps <= 15 /\ (forall c, In c comps -> f c <= max_samp f comps) /\ exists c, In c comps /\ f c = max_samp f comps.
Proof.
  intros Hc Hn. unfold max_samp. destruct (max_samp_spec f comps 1 ltac:(lia)) as (I1 & I2 & I3). cbv zeta in *.
  split; [|split; [exact I2|]].
  - destruct I3 as [->|(c & C1 & ->)]; [lia|]. pose proof (Hc c C1). lia.
  - destruct I3 as [E|(c & C1 & E)]; [|exists c; auto]. destruct comps as [|c l]; [congruence|]. exists c. split; [left; reflexivity|].
    pose proof (I2 c ltac:(left; reflexivity)). pose proof (Hc c ltac:(left; reflexivity)). lia.
Qed.

(** Blocks of one direction: [m] the largest factor, [s] this component's.  8205 is
    the figure of the assertions at brunsli_decode.cc:2214-2216. *)
Lemma blocks_bound n m s : 1 <= n <= 65535 -> 1 <= m <= 15 -> 1 <= s <= m ->
  1 <= div_ceil n (m * 8) * s <= 8205.
Proof.
  intros Hn Hm Hs. unfold div_ceil.
  assert (D : 1 <= (n + m * 8 - 1) / (m * 8)) by (apply Z.div_le_lower_bound; lia).
  assert (U : (n + m * 8 - 1) / (m * 8) <= (65535 + m * 8 - 1) / (m * 8)) by (apply Z.div_le_mono; lia).
  assert (B : (65535 + m * 8 - 1) / (m * 8) * m <= 8205).
  { assert (M : m = 1 \/ m = 2 \/ m = 3 \/ m = 4 \/ m = 5 \/ m = 6 \/ m = 7 \/ m = 8 \/ m = 9 \/ m = 10 \/ m = 11 \/ m = 12 \/ m = 13 \/ m = 14 \/ m = 15) by lia.
    repeat (destruct M as [->|M]; [vm_compute; discriminate|]). subst m. vm_compute. discriminate. }
  nia.
Qed.

Lemma blocks_cover n m : 1 <= n -> 1 <= m -> (div_ceil n (m * 8) - 1) * (m * 8) < n <= div_ceil n (m * 8) * (m * 8).
Proof.
  intros Hn Hm. unfold div_ceil. pose proof (Z.div_mod (n + m * 8 - 1) (m * 8) ltac:(lia)).
  pose proof (Z.mod_pos_bound (n + m * 8 - 1) (m * 8) ltac:(lia)). nia.
Qed.

(** What an accepted image header guarantees. *)
Definition grid_consistent (w h : Z) (comps : samplings) (g : grid) : Prop :=
  (* the MCU grid is the smallest one that covers the image *)
  (g_mcu_cols g - 1) * (8 * g_max_h g) < w <= g_mcu_cols g * (8 * g_max_h g) /\
  (g_mcu_rows g - 1) * (8 * g_max_v g) < h <= g_mcu_rows g * (8 * g_max_v g) /\
  (* the largest factors are the largest ones *)
  (forall c, In c comps -> fst c <= g_max_h g /\ snd c <= g_max_v g) /\
  (exists c, In c comps /\ fst c = g_max_h g) /\ (exists c, In c comps /\ snd c = g_max_v g) /\
  (* each component has its share of blocks, and not too many *)
  g_blocks g = map (fun c => (g_mcu_cols g * fst c, g_mcu_rows g * snd c)) comps /\
  Forall (fun b => 1 <= fst b <= 8205 /\ 1 <= snd b <= 8205 /\ fst b * snd b <= 2 ^ 21) (g_blocks g).

Definition header_valid (x : header) : Prop :=
  match x with
  | HFallback => True
  | HImage w h version legacy comps g =>
      1 <= w <= 65535 /\ 1 <= h <= 65535 /\ In version [0; 2; 4; 6] /\ legacy = negb (Z.testbit version 1) /\
      (1 <= length comps <= 4)%nat /\ Forall samp_ok comps /\ grid_consistent w h comps g
  end.

Lemma decode_samplings_spec : forall n code, length (decode_samplings n code) = n /\
  Forall (fun c => 1 <= fst c <= 16 /\ 1 <= snd c <= 16) (decode_samplings n code).
Proof.
  induction n as [|n IH]; intros code; cbn [decode_samplings length]; [split; [reflexivity|constructor]|].
  destruct (IH (Z.shiftr (Z.shiftr code 4) 4)) as [I1 I2]. split; [lia|]. constructor; [|exact I2]. cbn [fst snd].
  change 15 with (Z.ones 4). rewrite !Z.land_ones by lia.
  pose proof (Z.mod_pos_bound (Z.shiftr code 4) (2 ^ 4) ltac:(lia)). pose proof (Z.mod_pos_bound code (2 ^ 4) ltac:(lia)). lia.
Qed.

Lemma update_subsampling_ok w h comps g : 1 <= w <= 65535 -> 1 <= h <= 65535 -> comps <> [] -> Forall samp_ok comps ->
  update_subsampling w h comps = Some g -> grid_consistent w h comps g.
Proof.
  intros Hw Hh Hn Hc E. unfold update_subsampling in E. rewrite Forall_forall in Hc.
  destruct (max_samp_bounds fst comps (fun c I => proj1 (Hc c I)) Hn) as (H1 & H2 & H3).
  destruct (max_samp_bounds snd comps (fun c I => proj2 (Hc c I)) Hn) as (V1 & V2 & V3).
  match type of E with (if ?b then _ else _) = _ => destruct b eqn:X; [|discriminate] end.
  apply f_equal with (f := fun o => match o with Some z => z | None => g end) in E. cbv iota beta in E. subst g.
  unfold grid_consistent. cbn [g_mcu_cols g_mcu_rows g_max_h g_max_v g_blocks].
  split; [replace (8 * max_samp fst comps) with (max_samp fst comps * 8) by lia; apply blocks_cover; lia|].
  split; [replace (8 * max_samp snd comps) with (max_samp snd comps * 8) by lia; apply blocks_cover; lia|].
  split; [intros c I; auto|]. split; [exact H3|]. split; [exact V3|]. split; [reflexivity|].
  rewrite forallb_forall in X. apply Forall_forall. intros b I. specialize (X b I). apply in_map_iff in I. destruct I as (c & <- & I).
  cbn [fst snd] in *. destruct (Hc c I) as [C1 C2].
  pose proof (blocks_bound w (max_samp fst comps) (fst c) Hw H1 ltac:(specialize (H2 c I); lia)) as B1.
  pose proof (blocks_bound h (max_samp snd comps) (snd c) Hh V1 ltac:(specialize (V2 c I); lia)) as B2.
  split; [exact B1|]. split; [exact B2|]. revert X B1 B2.
  generalize (div_ceil w (max_samp fst comps * 8) * fst c) (div_ceil h (max_samp snd comps * 8) * snd c). intros x y X B1 B2.
  rewrite Z.mod_small in X; [lia|]. assert (x * y <= 8205 * 8205) by nia. change (2 ^ 32) with 4294967296. nia.
Qed.

Lemma version_low version : 0 <= version -> Z.land version 1 = 0 -> Z.land version (2 ^ 32 - 8) = 0 -> In (version mod 2 ^ 32) [0; 2; 4; 6] /\ Z.land version 2 = Z.land (version mod 2 ^ 32) 2.
Proof.
  intros H0 H1 H2.
  assert (B : forall k, 3 <= k < 32 -> Z.testbit version k = false).
  { intros k Hk. apply f_equal with (f := fun z => Z.testbit z k) in H2. rewrite Z.land_spec, Z.testbit_0_l in H2.
    assert (T : Z.testbit (2 ^ 32 - 8) k = true).
    { change (2 ^ 32 - 8) with (Z.shiftl (Z.ones 29) 3). rewrite Z.shiftl_spec, Z.ones_spec_low by lia. reflexivity. }
    rewrite T, andb_true_r in H2. exact H2. }
  assert (M : version mod 2 ^ 32 = version mod 8).
  { change 8 with (2 ^ 3). apply Z.bits_inj'. intros k Hk. destruct (Z.lt_ge_cases k 32).
    - rewrite Z.mod_pow2_bits_low by lia. destruct (Z.lt_ge_cases k 3); [rewrite Z.mod_pow2_bits_low by lia; reflexivity|].
      rewrite Z.mod_pow2_bits_high by lia. apply B. lia.
    - rewrite !Z.mod_pow2_bits_high by lia. reflexivity. }
  assert (P : version mod 2 = 0) by (change 1 with (Z.ones 1) in H1; rewrite Z.land_ones in H1 by lia; exact H1).
  split.
  - rewrite M. assert (version mod 8 = 0 \/ version mod 8 = 2 \/ version mod 8 = 4 \/ version mod 8 = 6) by dlia. cbn. lia.
  - apply Z.bits_inj'. intros k Hk. rewrite !Z.land_spec. destruct (Z.lt_ge_cases k 32).
    + rewrite Z.mod_pow2_bits_low by lia. reflexivity.
    + rewrite Z.mod_pow2_bits_high by lia. replace (Z.testbit 2 k) with false; [rewrite andb_false_r; reflexivity|].
      symmetry. apply Z.bits_above_log2; [lia|]. change (Z.log2 2) with 1. lia.
Qed.

Lemma header_finale_valid met vals x : Forall (fun v => 0 <= v) vals -> header_finale met vals = Some x -> header_valid x.
Proof.
  intros Hv E. unfold header_finale in E. destruct (negb (mem 3 met)); [discriminate|].
  assert (N : forall i, 0 <= nth i vals 0).
  { intros i. destruct (Nat.lt_ge_cases i (length vals)); [rewrite Forall_forall in Hv; apply Hv, nth_In; assumption|rewrite nth_overflow by assumption; lia]. }
  pose proof (N 3%nat) as Nv. pose proof (N 1%nat) as N1. pose proof (N 2%nat) as N2.
  remember (nth 3 vals 0) as vc eqn:X3. remember (nth 1 vals 0) as w eqn:X1. remember (nth 2 vals 0) as h eqn:X2.
  cbv zeta in E. remember (Z.shiftr vc 2) as version eqn:Xv.
  destruct (version =? 1).
  { apply f_equal with (f := fun o => match o with Some z => z | None => x end) in E. cbv iota beta in E. subst x. exact I. }
  destruct (Z.eqb_spec (Z.land version 1) 0) as [P1|]; [|discriminate]. cbn [negb] in E.
  destruct (Z.eqb_spec (Z.land version (2 ^ 32 - 8)) 0) as [P2|]; [|discriminate]. cbn [negb] in E.
  destruct (negb (mem 1 met)); [discriminate|]. destruct (negb (mem 2 met)); [discriminate|].
  destruct (_ || _) eqn:Q1 in E; [discriminate|]. destruct (_ || _) eqn:Q2 in E; [discriminate|].
  destruct (negb (mem 4 met)); [discriminate|].
  set (comps := decode_samplings (Z.to_nat (Z.land vc 3 + 1)) (nth 4 vals 0)) in *.
  destruct (forallb _ comps) eqn:Q3; cbn [negb] in E; [|discriminate].
  destruct (update_subsampling w h comps) as [g|] eqn:Q4; [|discriminate].
  apply f_equal with (f := fun o => match o with Some z => z | None => x end) in E. cbv iota beta in E. subst x.
  destruct (decode_samplings_spec (Z.to_nat (Z.land vc 3 + 1)) (nth 4 vals 0)) as [D1 D2]. fold comps in D1, D2.
  assert (R : 0 <= Z.land vc 3 < 4) by (change 3 with (Z.ones 2); rewrite Z.land_ones by lia; apply Z.mod_pos_bound; lia).
  assert (C : Forall samp_ok comps).
  { apply Forall_forall. intros c I. rewrite Forall_forall in D2. rewrite forallb_forall in Q3. pose proof (D2 c I). pose proof (Q3 c I). unfold samp_ok. lia. }
  destruct (version_low version) as [V1 V2]; [rewrite Xv, Z.shiftr_div_pow2 by lia; apply Z.div_pos; [assumption|lia]|exact P1|exact P2|].
  cbn [header_valid]. split; [lia|]. split; [lia|]. split; [exact V1|]. split.
  { rewrite V2. destruct V1 as [<-|[<-|[<-|[<-|[]]]]]; reflexivity. }
  split; [lia|]. split; [exact C|]. apply update_subsampling_ok; auto; try lia. intros Z. rewrite Z in D1. cbn in D1. lia.
Qed.

(** ** Through the byte parser *)

Fixpoint ball0 {A} (P : A -> Prop) (p : bprog A) : Prop :=
  match p with
  | BRet a => P a
  | BFail => True
  | BByte k => forall v, ball0 P (k v)
  | BBase128 k => forall v, 0 <= v -> ball0 P (k v)
  | BBytes acc n k => forall l, ball0 P (k l)
  | BPos k => forall q, ball0 P (k q)
  end.

Lemma brun_ball0 {A} (P : A -> Prop) D e avail : bytes D -> (avail <= length D)%nat -> forall (p : bprog A) pos, (pos <= avail)%nat -> ball0 P p ->
  match brun D e p pos avail with RDone x _ => P x | RFail => True | RMore s => ball0 P (fst s) end.
Proof.
  intros Hb Ha. induction p as [a| |k IH|k IH|acc n k IH|k IH]; intros pos Hp H; cbn [brun ball0] in *.
  - exact H.
  - exact I.
  - destruct (Nat.ltb_spec pos avail); [apply IH; [lia|apply H]|exact H].
  - destruct (decode_base128 (slice D pos avail)) as [v rest| |] eqn:E; auto.
    + destruct (decode_slice_ok D pos avail v rest Hb ltac:(lia) E) as (V & Q & _). apply IH; [lia|apply H; lia].
    + destruct e as [e|]; [destruct (_ <=? _)%nat|]; auto.
  - cbv zeta. destruct (_ <=? 0); [apply IH; [lia|apply H]|exact H].
  - apply IH; [exact Hp|apply H].
Qed.

Lemma read_tag_ball {A} (P : A -> Prop) met k : (forall t s m, ball0 P (k t s m)) -> ball0 P (read_tag met k).
Proof.
  intros H. unfold read_tag. cbn [ball0]. intros v. destruct (_ || _); [exact I|]. destruct (negb _); [exact I|].
  destruct (mem _ _); [exact I|apply H].
Qed.

Lemma header_items_ball : forall fuel send met vals, Forall (fun v => 0 <= v) vals -> ball0 header_valid (header_items fuel send met vals).
Proof.
  induction fuel as [|f IH]; intros send met vals Hv.
  - cbn [header_items ball0]. intros q. destruct (_ =? send); [|exact I].
    destruct (header_finale met vals) as [x|] eqn:E; [|exact I]. cbn [ball0]. exact (header_finale_valid _ _ _ Hv E).
  - rewrite header_items_S. cbn [ball0]. intros q. destruct (_ =? send).
    { destruct (header_finale met vals) as [x|] eqn:E; [|exact I]. cbn [ball0]. exact (header_finale_valid _ _ _ Hv E). }
    apply read_tag_ball. intros t s m. destruct s; cbn [ball0].
    + intros v V l. apply IH. exact Hv.
    + intros v V. apply IH. apply Forall_upd; assumption.
Qed.

Lemma decode_header_ball : ball0 header_valid decode_header.
Proof.
  unfold decode_header. apply read_tag_ball. intros t s m. destruct (_ || _); [exact I|]. cbn [ball0]. intros v V q.
  apply header_items_ball. repeat constructor; lia.
Qed.

(** * The grid is determined by the picture *)

Lemma ceil_unique n d a b : 1 <= d -> (a - 1) * d < n <= a * d -> (b - 1) * d < n <= b * d -> a = b.
Proof. intros. nia. Qed.

Lemma grid_unique w h comps g : 1 <= w <= 65535 -> 1 <= h <= 65535 -> comps <> [] -> Forall samp_ok comps ->
  grid_consistent w h comps g -> update_subsampling w h comps = Some g.
Proof.
  intros Hw Hh Hn Hc (G1 & G2 & G3 & (ch & G4 & G4') & (cv & G5 & G5') & G6 & G7). rewrite Forall_forall in Hc.
  destruct (max_samp_bounds fst comps (fun c I => proj1 (Hc c I)) Hn) as (H1 & H2 & (c1 & I1 & E1)).
  destruct (max_samp_bounds snd comps (fun c I => proj2 (Hc c I)) Hn) as (V1 & V2 & (c2 & I2 & E2)).
  assert (M1 : max_samp fst comps = g_max_h g).
  { pose proof (H2 ch G4). pose proof (proj1 (G3 c1 I1)). lia. }
  assert (M2 : max_samp snd comps = g_max_v g).
  { pose proof (V2 cv G5). pose proof (proj2 (G3 c2 I2)). lia. }
  unfold update_subsampling. rewrite M1, M2.
  assert (R1 : div_ceil w (g_max_h g * 8) = g_mcu_cols g).
  { apply (ceil_unique w (g_max_h g * 8)); [lia|apply blocks_cover; lia|lia]. }
  assert (R2 : div_ceil h (g_max_v g * 8) = g_mcu_rows g).
  { apply (ceil_unique h (g_max_v g * 8)); [lia|apply blocks_cover; lia|lia]. }
  rewrite R1, R2, <- G6.
  assert (F : forallb (fun b => (fst b * snd b) mod 2 ^ 32 <=? 2 ^ 21) (g_blocks g) = true).
  { apply forallb_forall. intros b I. rewrite Forall_forall in G7. destruct (G7 b I) as (B1 & B2 & B3).
    rewrite Z.mod_small; [lia|]. split; [nia|]. apply (Z.le_lt_trans _ (2 ^ 21)); [exact B3|reflexivity]. }
  rewrite F. destruct g. reflexivity.
Qed.

(** * Arbitrary well-formed item lists *)

(** A header item: a tag with a number, or with skipped contents. *)
Inductive hitem := HVal (tag v : Z) | HSec (tag : Z) (contents : list Z).
Definition item_tag (i : hitem) : Z := match i with HVal t _ => t | HSec t _ => t end.
Definition item_bytes (i : hitem) : list Z :=
  match i with
  | HVal t v => value_marker t :: encode_base128 v
  | HSec t c => section_marker t :: encode_base128 (Z.of_nat (length c)) ++ c
  end.
Definition item_ok (i : hitem) : Prop :=
  1 <= item_tag i <= 15 /\ match i with HVal _ v => 0 <= v < 2 ^ 63 | HSec _ c => Z.of_nat (length c) < 2 ^ 63 /\ bytes c end.
(** The number a header gives for a tag: the one written, or nothing. *)
Definition item_number (items : list hitem) (tag : Z) : Z :=
  fold_right (fun i acc => match i with HVal t v => if t =? tag then v else acc | HSec _ _ => acc end) 0 items.

Definition set_item (vals : list Z) (i : hitem) : list Z :=
  match i with HVal t v => upd vals (Z.to_nat t) v | HSec _ _ => vals end.

Lemma item_bytes_len i : (2 <= length (item_bytes i))%nat.
Proof.
  destruct i as [t v|t c]; cbn [item_bytes length]; [pose proof (encode_base128_len_pos v); lia|].
  rewrite app_length. pose proof (encode_base128_len_pos (Z.of_nat (length c))). lia.
Qed.

Lemma items_run : forall items fuel send met vals pos r, Forall item_ok items -> NoDup (map item_tag items) ->
  (forall i, In i items -> mem (item_tag i) met = false) -> (length items <= fuel)%nat ->
  send = Z.of_nat pos + Z.of_nat (length (concat (map item_bytes items))) ->
  bfull (header_items fuel send met vals) pos (concat (map item_bytes items) ++ r) =
  match header_finale (rev (map item_tag items) ++ met) (fold_left set_item items vals) with
  | Some x => Some (x, (pos + length (concat (map item_bytes items)))%nat, r) | None => None end.
Proof.
  induction items as [|i items IH]; intros fuel send met vals pos r Hok Hnd Hm Hf He.
  - cbn [map concat app length rev fold_left] in *. assert (Hz : Z.of_nat pos = send) by lia.
    destruct fuel; cbn [header_items bfull]; rewrite Hz, Z.eqb_refl; (destruct (header_finale met vals); [cbn [bfull]; do 3 f_equal; lia|reflexivity]).
  - destruct fuel as [|f]; [cbn [length] in Hf; lia|]. pose proof (item_bytes_len i) as Li.
    cbn [map concat] in *. rewrite app_length in He. rewrite <- app_assoc. rewrite header_items_S. cbn [bfull].
    destruct (Z.eqb_spec (Z.of_nat pos) send); [lia|].
    destruct (Forall_inv Hok) as [O1 O2]. pose proof (Hm i (or_introl eq_refl)) as Mi.
    apply NoDup_cons_iff in Hnd. destruct Hnd as [Nd1 Nd2].
    assert (Hm' : forall j, In j items -> mem (item_tag j) (item_tag i :: met) = false).
    { intros j J. unfold mem. cbn [existsb]. fold (mem (item_tag j) met). rewrite (Hm j (or_intror J)), orb_false_r.
      destruct (Z.eqb_spec (item_tag j) (item_tag i)) as [E|]; [|reflexivity]. exfalso. apply Nd1. rewrite <- E. apply in_map. exact J. }
    specialize (IH f send (item_tag i :: met) (set_item vals i) (pos + length (item_bytes i))%nat r (Forall_inv_tail Hok) Nd2 Hm').
    specialize (IH ltac:(cbn [length] in Hf; lia) ltac:(lia)).
    cbn [rev fold_left]. rewrite <- app_assoc. cbn [app].
    replace (pos + length (item_bytes i ++ concat (map item_bytes items)))%nat with (pos + length (item_bytes i) + length (concat (map item_bytes items)))%nat by (rewrite app_length; lia).
    rewrite <- IH. destruct i as [t v|t c]; cbn [item_bytes item_tag set_item] in *.
    + change ((value_marker t :: encode_base128 v) ++ concat (map item_bytes items) ++ r) with ((if false then section_marker t else value_marker t) :: (encode_base128 v ++ concat (map item_bytes items) ++ r)).
      rewrite bfull_tag by assumption. rewrite bfull_base128 by assumption. f_equal. cbn [length]. lia.
    + destruct O2 as [O2 O3]. rewrite <- app_comm_cons, <- app_assoc.
      change (section_marker t) with (if true then section_marker t else value_marker t).
      rewrite bfull_tag by assumption. rewrite bfull_base128 by (split; [lia|exact O2]). cbn [bfull].
      rewrite app_length. destruct (Z.leb_spec (Z.of_nat (length c)) (Z.of_nat (length c + length (concat (map item_bytes items) ++ r)))); [|lia].
      rewrite Nat2Z.id, skipn_app_exact by reflexivity. f_equal. cbn [length]. rewrite app_length. lia.
Qed.

Lemma set_items_number : forall items vals tag, Forall item_ok items -> NoDup (map item_tag items) -> length vals = 16%nat -> 1 <= tag <= 15 ->
  (In tag (map item_tag items) -> nth (Z.to_nat tag) vals 0 = 0) ->
  nth (Z.to_nat tag) (fold_left set_item items vals) 0 =
  (if in_dec Z.eq_dec tag (map item_tag items) then item_number items tag else nth (Z.to_nat tag) vals 0).
Proof.
  induction items as [|i items IH]; intros vals tag Hok Hnd Hl Ht Hz; [reflexivity|].
  cbn [fold_left map]. cbn [map] in Hnd, Hz. apply NoDup_cons_iff in Hnd. destruct Hnd as [Nd1 Nd2].
  destruct (Forall_inv Hok) as [O1 O2].
  assert (L : length (set_item vals i) = 16%nat) by (destruct i; cbn [set_item]; [rewrite upd_length|]; exact Hl).
  rewrite (IH (set_item vals i) tag (Forall_inv_tail Hok) Nd2 L Ht).
  - destruct (in_dec Z.eq_dec tag (map item_tag items)) as [I|NI]; destruct (in_dec Z.eq_dec tag (item_tag i :: map item_tag items)) as [J|NJ].
    + cbn [item_number fold_right]. destruct i as [t v|t c]; [|reflexivity]. cbn [item_tag] in *. destruct (Z.eqb_spec t tag); [congruence|reflexivity].
    + exfalso. apply NJ. right. exact I.
    + destruct J as [J|J]; [|contradiction]. cbn [item_number fold_right]. destruct i as [t v|t c]; cbn [item_tag set_item] in *.
      * subst t. rewrite Z.eqb_refl, nth_upd_same by lia. reflexivity.
      * rewrite Hz by (left; exact J). symmetry. clear - NI. induction items as [|[t' v'|t' c'] l IH2]; [reflexivity| |]; cbn [fold_right].
        -- destruct (Z.eqb_spec t' tag) as [->|]; [exfalso; apply NI; left; reflexivity|]. apply IH2. intros C. apply NI. right. exact C.
        -- apply IH2. intros C. apply NI. right. exact C.
    + destruct i as [t v|t c]; cbn [item_tag set_item] in *; [|reflexivity]. rewrite nth_upd_other; [reflexivity|].
      intros E. apply NJ. left. lia.
  - intros I. destruct i as [t v|t c]; cbn [set_item item_tag] in *; [|apply Hz; right; exact I].
    rewrite nth_upd_other; [apply Hz; right; exact I|]. intros E. apply Nd1. replace t with tag by lia. exact I.
Qed.

Lemma item_number_sec items tag c : NoDup (map item_tag items) -> In (HSec tag c) items -> item_number items tag = 0.
Proof.
  intros Hnd Hin. induction items as [|i items IH]; [destruct Hin|]. cbn [map] in Hnd. apply NoDup_cons_iff in Hnd. destruct Hnd as [N1 N2].
  cbn [item_number fold_right]. fold (item_number items tag). destruct Hin as [->|Hin].
  - cbn [item_tag] in N1. clear - N1. induction items as [|[t' v'|t' c'] l IH2]; [reflexivity| |]; cbn [item_number fold_right map item_tag] in *; fold (item_number l tag).
    + destruct (Z.eqb_spec t' tag) as [->|]; [exfalso; apply N1; left; reflexivity|]. apply IH2. intros C. apply N1. right. exact C.
    + apply IH2. intros C. apply N1. right. exact C.
  - rewrite (IH N2 Hin). destruct i as [t v|t c']; [|reflexivity]. destruct (Z.eqb_spec t tag) as [->|]; [|reflexivity].
    exfalso. apply N1. cbn [item_tag]. apply in_map_iff. exists (HSec tag c). split; [reflexivity|exact Hin].
Qed.

Lemma mem_In t l : mem t l = true <-> In t l.
Proof.
  unfold mem. rewrite existsb_exists. split; [intros (x & I & E)|intros I; exists t; split; [exact I|apply Z.eqb_refl]].
  apply Z.eqb_eq in E. subst. exact I.
Qed.

Lemma tags_length (l : list Z) : NoDup l -> Forall (fun t => 1 <= t <= 15) l -> (length l <= 15)%nat.
Proof.
  intros H F. assert (I : incl l (map Z.of_nat (seq 1 15))).
  { intros t T. rewrite Forall_forall in F. specialize (F t T). apply in_map_iff. exists (Z.to_nat t). split; [lia|]. apply in_seq. lia. }
  pose proof (NoDup_incl_length H I) as L. rewrite map_length, seq_length in L. exact L.
Qed.
