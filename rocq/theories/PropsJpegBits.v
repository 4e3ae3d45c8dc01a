(** C33, C34: entropy coded segments of a JPEG file as written and read. *)
From Verif Require Import Base JBitModel JWriteProofs JReadProofs.

(** * C33: what the bit writer puts into the file *)

(** [bs] are the bits [bits] filled up to whole bytes, with ones or with stored padding bits. *)
Inductive padded (bits : list bool) : option (list Z) -> list Z -> option (list Z) -> Prop :=
| padded_ones bs k : (k < 8)%nat -> bytes bs -> byte_bits bs = bits ++ repeat true k ->
    padded bits None bs None
| padded_stored bs used rest : (length used < 8)%nat -> bytes bs ->
    byte_bits bs = bits ++ map (fun b => negb (b =? 0)) used ->
    padded bits (Some (used ++ rest)) bs (Some rest).

(** Segments ended by a marker, then a last one. *)
Inductive scan_out (last : list bool) : list (list bool * Z) -> option (list Z) -> list Z -> option (list Z) -> Prop :=
| scan_last pads bs pads' : padded last pads bs pads' -> scan_out last [] pads (stuff bs) pads'
| scan_more bits m r pads bs pads1 out pads' :
    padded bits pads bs pads1 -> scan_out last r pads1 out pads' ->
    scan_out last ((bits, m) :: r) pads (stuff bs ++ [255; m] ++ out) pads'.

Definition writes (l : list (Z * Z)) : list wop := map (fun nv => WBitsOp (fst nv) (snd nv)) l.
Definition bits_of_writes (l : list (Z * Z)) : list bool := flat_map (fun nv => mbits (Z.to_nat (fst nv)) (snd nv)) l.
Definition write_legal (nv : Z * Z) : Prop := 0 < fst nv <= 16 /\ 0 <= snd nv < 2 ^ fst nv.

Definition scan_ops (segs : list (list (Z * Z) * Z)) (last : list (Z * Z)) : list wop :=
  flat_map (fun sm => writes (fst sm) ++ [WJumpOp; WMarkerOp (snd sm)]) segs ++ writes last ++ [WJumpOp].

Lemma render_writes l r pads acc : render acc (writes l ++ r) pads = render (acc ++ bits_of_writes l) r pads.
Proof.
  revert acc; induction l as [|[n v] l IH]; intros acc; [cbn [writes bits_of_writes map flat_map app]; rewrite app_nil_r; reflexivity|].
  unfold writes, bits_of_writes in *. cbn [map flat_map app fst snd render]. rewrite IH, app_assoc. reflexivity.
Qed.

Lemma byte_mult (bits : list bool) k (bs : list Z) : (k < 8)%nat -> (length bits + k = 8 * length bs)%nat -> k = pad_need (length bits).
Proof.
  intros K E. unfold pad_need.
  assert (E2 : (length bits mod 8 = (8 - k) mod 8)%nat).
  { destruct (length bs) as [|x]; [replace (length bits) with 0%nat by lia; replace k with 0%nat by lia; reflexivity|].
    replace (length bits) with (8 - k + x * 8)%nat by lia. apply Nat.mod_add. lia. }
  rewrite E2. destruct k as [|k]; [reflexivity|]. rewrite (Nat.mod_small (8 - S k)) by lia.
  rewrite Nat.mod_small by lia. lia.
Qed.

Lemma padded_padding bits pads bs pads' : padded bits pads bs pads' ->
  exists pb, padding (pad_need (length bits)) pads = Some (pb, pads') /\ byte_bits bs = bits ++ pb /\ bytes bs.
Proof.
  intros [b k K Y E|b used rest K Y E].
  - exists (repeat true k). apply (f_equal (@length bool)) in E as EL. rewrite byte_bits_length, app_length, repeat_length in EL.
    rewrite <- (byte_mult bits k b K) by lia. split; [reflexivity|]. auto.
  - exists (map (fun b => negb (b =? 0)) used). apply (f_equal (@length bool)) in E as EL. rewrite byte_bits_length, app_length, map_length in EL.
    rewrite <- (byte_mult bits (length used) b K) by lia. unfold padding. rewrite app_length.
    destruct (Nat.leb_spec (length used) (length used + length rest)); [|lia].
    rewrite firstn_app_exact, skipn_app_exact. auto.
Qed.

Lemma pack_bytes bs bits : bytes bs -> byte_bits bs = bits -> packm (length bits / 8) bits = bs.
Proof.
  intros Y <-. rewrite byte_bits_length. replace (8 * length bs)%nat with (length bs * 8)%nat by lia. rewrite Nat.div_mul by lia.
  apply byte_bits_inj; [apply packm_bytes; rewrite byte_bits_length; lia|exact Y|]. rewrite packm_bits by (rewrite byte_bits_length; lia). reflexivity.
Qed.

Lemma render_scan last out pads pads' segs : scan_out (bits_of_writes last) (map (fun sm => (bits_of_writes (fst sm), snd sm)) segs) pads out pads' ->
  render [] (scan_ops segs last) pads = Some (out, [], pads').
Proof.
  revert out pads; induction segs as [|[s m] segs IH]; intros out pads H.
  - cbn [map] in H. inversion H as [p0 bs p1 PD|]; subst.
    unfold scan_ops. cbn [flat_map app]. rewrite render_writes. cbn [app].
    destruct (padded_padding _ _ _ _ PD) as [pb [EP [EB Y]]]. cbn [render]. rewrite EP. cbn [render].
    rewrite (pack_bytes bs) by auto. rewrite app_nil_r. reflexivity.
  - cbn [map fst snd] in H. inversion H as [|b0 m0 r0 p0 bs p1 o1 p2 PD R]; subst.
    unfold scan_ops. cbn [flat_map fst snd]. rewrite <- !app_assoc. rewrite render_writes. cbn [app].
    destruct (padded_padding _ _ _ _ PD) as [pb [EP [EB Y]]]. cbn [render]. rewrite EP.
    specialize (IH o1 p1 R). unfold scan_ops in IH. rewrite IH.
    rewrite (pack_bytes bs) by auto. reflexivity.
Qed.

(** Whatever is written, the file gets exactly the bytes of each segment, with every 0xFF
    escaped, and the markers in between; the writer neither fails nor leaves its buffer. *)
Theorem C33_scan_data segs last pads out pads' :
  Forall (fun sm => Forall write_legal (fst sm)) segs -> Forall write_legal last ->
  scan_out (bits_of_writes last) (map (fun sm => (bits_of_writes (fst sm), snd sm)) segs) pads out pads' ->
  exists s, bw_run (scan_ops segs last) pads bw_init = WOk (s, pads') /\ bw_finish s = out /\ bw_ok s = true.
Proof.
  intros H1 H2 SO. apply render_scan in SO.
  assert (OK : Forall op_ok (scan_ops segs last)).
  { assert (W : forall l, Forall write_legal l -> Forall op_ok (writes l)).
    { intros l HL. unfold writes. rewrite Forall_map. eapply Forall_impl; [|exact HL]. intros [n v] H. exact H. }
    unfold scan_ops. apply Forall_app. split; [|apply Forall_app; split; [apply W, H2|repeat constructor]].
    apply Forall_flat_map. eapply Forall_impl; [|exact H1]. intros [s m] H. cbn [fst snd] in *. apply Forall_app. split; [apply W, H|repeat constructor]. }
  destruct (run_render (scan_ops segs last) pads bw_init [] [] out [] pads' OK) as (s & done & P & R & EO & I & Y & EA & B).
  - repeat split. cbn [length]. lia.
  - cbn [length]; lia.
  - constructor.
  - exact SO.
  - exists s. split; [exact R|]. symmetry in EA. apply app_eq_nil in EA as [EA _].
    assert (done = []) as -> by (destruct done; [reflexivity|apply (f_equal (@length bool)) in EA; rewrite byte_bits_length in EA; cbn [length] in EA; lia]).
    specialize (B [] eq_refl). cbn [stuff flat_map app] in B. rewrite app_nil_r in B. split; [exact B|exact EO].
Qed.
Print Assumptions C33_scan_data.

(** With enough padding bits stored (or none recorded) the layout exists. *)
Theorem C33_layout_exists segs last pads :
  match pads with None => True | Some src => (8 * S (length segs) <= length src)%nat end ->
  exists out pads', scan_out last segs pads out pads'.
Proof.
  assert (PD : forall bits pads, match pads with None => True | Some src => (8 <= length src)%nat end ->
     exists bs pads', padded bits pads bs pads' /\ match pads, pads' with None, None => True | Some a, Some b => (length a <= 8 + length b)%nat | _, _ => False end).
  { intros bits p Hp. set (n := pad_need (length bits)).
    assert (N8 : (n < 8)%nat) by (unfold n, pad_need; apply Nat.mod_upper_bound; lia).
    assert (MK : forall pb, length pb = n -> exists bs, bytes bs /\ byte_bits bs = bits ++ pb).
    { intros pb Lp. exists (packm (length (bits ++ pb) / 8) (bits ++ pb)). assert (L8 : length (bits ++ pb) = (8 * (length (bits ++ pb) / 8))%nat); [|split; [apply packm_bytes; lia|apply packm_bits; exact L8]].
      rewrite app_length, Lp. pose proof (pad_need_total (length bits)) as M. fold n in M.
      pose proof (Nat.div_mod (length bits + n) 8 ltac:(lia)). lia. }
    destruct p as [src|].
    - destruct (MK (map (fun b => negb (b =? 0)) (firstn n src))) as [bs [Y E]]; [rewrite map_length, firstn_length; lia|].
      exists bs, (Some (skipn n src)). split; [|rewrite skipn_length; lia].
      rewrite <- (firstn_skipn n src) at 1. apply padded_stored; [rewrite firstn_length; lia|exact Y|exact E].
    - destruct (MK (repeat true n)) as [bs [Y E]]; [apply repeat_length|]. exists bs, None. split; [|exact I].
      apply (padded_ones bits bs n); auto. }
  revert pads; induction segs as [|[b m] segs IH]; intros pads H.
  - destruct (PD last pads) as (bs & pads' & P & _).
    { destruct pads; [cbn [length] in H; lia|exact I]. }
    eexists; eexists. apply scan_last. exact P.
  - destruct (PD b pads) as (bs & pads' & P & L).
    { destruct pads; [cbn [length] in H; lia|exact I]. }
    destruct (IH pads') as (out & p2 & R).
    { destruct pads as [a|], pads' as [c|]; try contradiction; [|exact I]. cbn [length] in H. lia. }
    eexists; eexists. eapply scan_more; [exact P|exact R].
Qed.
Print Assumptions C33_layout_exists.

(** In entropy coded data a 0xFF byte is always followed by 0x00, and taking these zeros
    out gives the coded bytes back. *)
Fixpoint unstuff (l : list Z) : list Z :=
  match l with
  | 255 :: 0 :: r => 255 :: unstuff r
  | b :: r => b :: unstuff r
  | [] => []
  end.

Lemma unstuff_other b r : b <> 255 -> unstuff (b :: r) = b :: unstuff r.
Proof.
  intros N. destruct b as [|p|p]; try reflexivity.
  do 8 (destruct p as [p|p|]; try reflexivity). exfalso. apply N. reflexivity.
Qed.

Theorem C33_no_marker_inside bs :
  (forall i, nth_error (stuff bs) i = Some 255 -> nth_error (stuff bs) (S i) = Some 0) /\ unstuff (stuff bs) = bs.
Proof.
  split; [apply stuff_ff|].
  induction bs as [|b bs IH]; [reflexivity|]. unfold stuff in *. cbn [flat_map].
  destruct (Z.eqb_spec b 255) as [->|N]; cbn [app]; [cbn [unstuff]; rewrite IH; reflexivity|].
  rewrite unstuff_other by exact N. rewrite IH. reflexivity.
Qed.
Print Assumptions C33_no_marker_inside.

(** * C34: what the bit reader takes out of the file *)

Fixpoint read_all (data : list Z) (ns : list Z) (s : bitr) : jres (list Z * bitr) :=
  match ns with
  | [] => JOk ([], s)
  | n :: r => let* vs := br_read data n s in let* ws := read_all data r (snd vs) in JOk (fst vs :: fst ws, snd ws)
  end.

Definition total (ns : list Z) : nat := fold_right (fun n a => (Z.to_nat n + a)%nat) 0%nat ns.

Lemma read_all_ok data p0 : bytes data -> forall ns U s, bri data p0 U s -> Forall (fun n => 0 < n <= 16) ns ->
  exists vs s', read_all data ns s = JOk (vs, s') /\ length vs = length ns
    /\ bri data p0 (U ++ flat_map (fun nv => mbits (Z.to_nat (fst nv)) (snd nv)) (combine ns vs)) s'
    /\ length (flat_map (fun nv => mbits (Z.to_nat (fst nv)) (snd nv)) (combine ns vs)) = total ns
    /\ Forall2 (fun n v => 0 <= v < 2 ^ n) ns vs.
Proof.
  intros Y ns; induction ns as [|n ns IH]; intros U s I H.
  - exists [], s. cbn [combine flat_map]. rewrite app_nil_r. repeat split; auto.
  - inversion H as [|? ? Hn H']; subst.
    destruct (read_ok data p0 U s n Y I Hn) as (v & s1 & R & Rv & I1).
    destruct (IH _ s1 I1 H') as (vs & s2 & R2 & L2 & I2 & T2 & F2).
    exists (v :: vs), s2. cbn [read_all]. rewrite R. cbn [jbind fst snd]. rewrite R2. cbn [jbind fst snd].
    split; [reflexivity|]. split; [cbn [length]; congruence|]. cbn [combine flat_map fst snd].
    rewrite app_assoc. split; [exact I2|]. split; [|constructor; auto].
    rewrite app_length, mbits_length, T2. reflexivity.
Qed.

(** Reading any sequence of fields from a segment gives the bits of the unescaped segment,
    in order. *)
Theorem C34_bits_of_the_segment pre bs m rest ns :
  bytes (pre ++ stuff bs ++ [255; m] ++ rest) -> pre <> [] -> m <> 0 ->
  Forall (fun n => 0 < n <= 16) ns -> (total ns <= 8 * length bs)%nat ->
  exists s0 vs s, br_reset (pre ++ stuff bs ++ [255; m] ++ rest) (Z.of_nat (length pre)) = JOk s0
    /\ read_all (pre ++ stuff bs ++ [255; m] ++ rest) ns s0 = JOk (vs, s) /\ length vs = length ns
    /\ flat_map (fun nv => mbits (Z.to_nat (fst nv)) (snd nv)) (combine ns vs) = firstn (total ns) (byte_bits bs)
    /\ Forall2 (fun n v => 0 <= v < 2 ^ n) ns vs.
Proof.
  set (data := pre ++ stuff bs ++ [255; m] ++ rest). intros Y Np Hm Hns LT.
  assert (Lp : (0 < length pre)%nat) by (destruct pre; [congruence|cbn [length]; lia]).
  assert (SG : segment data (Z.of_nat (length pre)) bs m).
  { split; [exact Hm|]. exists pre, rest. split; [|reflexivity]. unfold data. rewrite <- !app_assoc. reflexivity. }
  destruct (reset_ok data (Z.of_nat (length pre)) Y) as [s0 [R0 I0]]; [unfold data; rewrite app_length; lia|].
  destruct (read_all_ok data _ Y ns [] s0 I0 Hns) as (vs & s & R & L & I & T & F). cbn [app] in I.
  exists s0, vs, s. split; [exact R0|]. split; [exact R|]. split; [exact L|]. split; [|exact F].
  rewrite <- T. apply (bri_segment data _ _ s bs m SG I). lia.
Qed.
Print Assumptions C34_bits_of_the_segment.

(** Finishing after the last field hands the unused bytes back: the parser goes on exactly
    behind the byte that holds the last field, and learns the padding bits of that byte. *)
Theorem C34_resume_behind_the_segment pre bs m rest ns :
  bytes (pre ++ stuff bs ++ [255; m] ++ rest) -> pre <> [] -> m <> 0 ->
  Forall (fun n => 0 < n <= 16) ns -> (total ns <= 8 * length bs < total ns + 8)%nat ->
  (ns <> [] \/ last pre 0 <> 255) ->
  exists s0 vs s, br_reset (pre ++ stuff bs ++ [255; m] ++ rest) (Z.of_nat (length pre)) = JOk s0
    /\ read_all (pre ++ stuff bs ++ [255; m] ++ rest) ns s0 = JOk (vs, s)
    /\ br_finish (pre ++ stuff bs ++ [255; m] ++ rest) s
       = JOk (negb (forallb (fun b => b) (skipn (total ns) (byte_bits bs))),
              map b2z (skipn (total ns) (byte_bits bs)),
              Z.of_nat (length (pre ++ stuff bs))).
Proof.
  set (data := pre ++ stuff bs ++ [255; m] ++ rest). intros Y Np Hm Hns LT HU.
  assert (Lp : (0 < length pre)%nat) by (destruct pre; [congruence|cbn [length]; lia]).
  assert (SG : segment data (Z.of_nat (length pre)) bs m).
  { split; [exact Hm|]. exists pre, rest. split; [|reflexivity]. unfold data. rewrite <- !app_assoc. reflexivity. }
  destruct (reset_ok data (Z.of_nat (length pre)) Y) as [s0 [R0 I0]]; [unfold data; rewrite app_length; lia|].
  destruct (read_all_ok data _ Y ns [] s0 I0 Hns) as (vs & s & R & L & I & T & F). cbn [app] in I.
  exists s0, vs, s. split; [exact R0|]. split; [exact R|].
  set (U := flat_map _ _) in *.
  assert (EU : U = firstn (total ns) (byte_bits bs)) by (rewrite <- T; apply (bri_segment data _ _ s bs m SG I); lia).
  destruct (finish_segment data _ U s bs m Y SG I) as (k & pb & K8 & L8 & EB & EF).
  - destruct HU as [Hn|Hl].
    + left. intros E. rewrite E in T. cbn [length] in T. destruct ns as [|n ns]; [congruence|].
      inversion Hns; subst. cbn [total fold_right] in T. lia.
    + right. intros G. apply Hl. apply aget_Some in G as [_ G]. unfold data in G.
      rewrite nth_error_app1 in G by lia. destruct (exists_last Np) as [p' [x Ex]]. rewrite Ex in *.
      rewrite last_last. rewrite app_length in G. cbn [length] in G.
      replace (Z.to_nat (Z.of_nat (length p' + 1) - 1)) with (length p') in G by lia.
      rewrite nth_error_app2, Nat.sub_diag in G by lia. injection G as ->. reflexivity.
  - lia.
  - rewrite T in *.
    assert (Kb : k = length bs).
    { apply (f_equal (@length bool)) in EB. rewrite byte_bits_length, firstn_length, (app_length U) in EB. lia. }
    rewrite Kb, firstn_all in EB, EF.
    assert (Ep : pb = skipn (total ns) (byte_bits bs)) by (rewrite EB; replace (total ns) with (length U) by exact T; rewrite skipn_app_exact; reflexivity).
    rewrite <- Ep. rewrite EF. rewrite app_length. do 2 f_equal. lia.
Qed.
Print Assumptions C34_resume_behind_the_segment.

(** * Non-vacuity *)

Definition ex_segs : list (list (Z * Z) * Z) := [([(8, 255); (3, 5)], 208); ([(16, 65535); (16, 65280); (1, 0)], 209)].

Example C33_case : scan_out (bits_of_writes [(2, 1)]) (map (fun sm => (bits_of_writes (fst sm), snd sm)) ex_segs)
    None [255; 0; 191; 255; 208; 255; 0; 255; 0; 255; 0; 0; 127; 255; 209; 127] None
  /\ match bw_run (scan_ops ex_segs [(2, 1)]) None bw_init with WOk (s, _) => bw_finish s | _ => [] end
     = [255; 0; 191; 255; 208; 255; 0; 255; 0; 255; 0; 0; 127; 255; 209; 127].
Proof.
  split; [|vm_compute; reflexivity].
  refine (scan_more _ _ 208 _ _ [255; 191] _ [255; 0; 255; 0; 255; 0; 0; 127; 255; 209; 127] _ _ _).
  - apply (padded_ones _ _ 5); [lia|repeat constructor; lia|reflexivity].
  - refine (scan_more _ _ 209 _ _ [255; 255; 255; 0; 127] _ [127] _ _ _).
    + apply (padded_ones _ _ 7); [lia|repeat constructor; lia|reflexivity].
    + apply (scan_last _ None [127]). apply (padded_ones _ _ 6); [lia|repeat constructor; lia|reflexivity].
Qed.

Example C33_case_stored : padded [true; false; true] (Some [0; 1; 0; 0; 1; 7; 8]) [169] (Some [7; 8])
  /\ match bw_run [WBitsOp 3 5; WJumpOp] (Some [0; 1; 0; 0; 1; 7; 8]) bw_init with WOk (s, p) => (bw_finish s, p) | _ => ([], None) end = ([169], Some [7; 8]).
Proof. split; [|vm_compute; reflexivity]. apply (padded_stored _ _ [0; 1; 0; 0; 1] [7; 8]); [cbn [length]; lia|repeat constructor; lia|reflexivity]. Qed.

Definition ex_data : list Z := [1; 2] ++ stuff [255; 191; 255; 255; 7] ++ [255; 217] ++ [9].
Example C34_case :
  (total [16; 1; 16; 5]%Z <= 8 * 5 < total [16; 1; 16; 5]%Z + 8)%nat
  /\ match br_reset ex_data 2 with
     | JOk s0 => match read_all ex_data [16; 1; 16; 5] s0 with
                 | JOk (vs, s) => (vs, br_finish ex_data s) | _ => ([], JErr) end
     | _ => ([], JErr) end
     = ([65471; 1; 65534; 1], JOk (false, [1; 1], 10)).
Proof. split; [cbn; lia|vm_compute; reflexivity]. Qed.
