(** C23: the JPEG-structure section (marker order, restart interval, Huffman
    tables, scan scripts, quantisation table headers, component ids, padding
    bits, bytes between markers). *)
From Verif Require Import Base BitModel BitProofs CodesModel JpegModel Tables Stream InternalsModel InternalsProofs InternalsProofs2 InternalsProofs3 InternalsProofs4.

(** Everything the section stores comes back, whatever follows the section in the
    stream and in whatever pieces the stream arrives. *)
Theorem C23_internals_round_trip :
  forall (w h : Z) (x : internals) (inter : list (list Z)) (out rest : list Z) (avails : list nat),
    internals_ok w h x ->
    length inter = count_marker 255 (in_markers x) -> Forall bytes inter ->
    Forall (fun s => Z.of_nat (length s) < 2 ^ 63) inter -> bytes rest ->
    encode_aux w h x inter = Some out ->
    nondecreasing 0 avails -> Forall (fun a => (a <= length (out ++ rest))%nat) avails -> In (length (out ++ rest)) avails ->
    calls (jcall (out ++ rest) (length out)) (jinit (length out) w h (length (in_ids x))) avails = RDone (x, inter) (length out).
Proof.
  intros w h x inter out rest avails Hok HL Hb H63 Hr E Hm Hle Hin.
  destruct (jcall_roundtrip w h x inter out rest Hok HL H63 Hb Hr E) as [Bo R].
  assert (Bd : bytes (out ++ rest)) by (apply bytes_app; split; assumption).
  apply (calls_complete _ (jinv (out ++ rest) (length out)) (length (out ++ rest)) ) with (a := 0%nat); auto.
  - apply jcall_stable; [exact Bd|rewrite app_length; lia|lia].
  - apply jinit_inv.
Qed.
Print Assumptions C23_internals_round_trip.

(** For arbitrary bytes: whether the section is accepted, and with what content,
    does not depend on the pieces it arrives in. *)
Theorem C23_internals_piece_independent :
  forall (D : list Z) (n ncomp : nat) (w h : Z) (avails1 avails2 : list nat),
    bytes D -> (n <= length D)%nat ->
    nondecreasing 0 avails1 -> Forall (fun a => (a <= length D)%nat) avails1 -> In (length D) avails1 ->
    nondecreasing 0 avails2 -> Forall (fun a => (a <= length D)%nat) avails2 -> In (length D) avails2 ->
    forall y q, calls (jcall D n) (jinit n w h ncomp) avails1 = RDone y q <->
                calls (jcall D n) (jinit n w h ncomp) avails2 = RDone y q.
Proof.
  intros D n nc w h a1 a2 Hb Hn M1 L1 I1 M2 L2 I2 y q.
  pose proof (jcall_stable D n (length D) Hb Hn (le_n _)) as S.
  rewrite (calls_complete _ _ _ S a1 _ 0%nat (jinit_inv D n w h nc) M1 L1 I1).
  rewrite (calls_complete _ _ _ S a2 _ 0%nat (jinit_inv D n w h nc) M2 L2 I2). reflexivity.
Qed.
Print Assumptions C23_internals_piece_independent.

(** Whatever bytes the section holds and however they arrive: accepted content is
    well formed.  Huffman tables never over-subscribe 16 bits and list distinct symbols; marker, table, scan and
    blob counts agree; block numbers increase and stay within 2^30; the padding is bounded by the image size; and
    exactly the declared section length is used. *)
Theorem C23_accepted_internals_are_valid :
  forall (D : list Z) (n ncomp : nat) (w h : Z) (avails : list nat) x inter q,
    bytes D -> (n <= length D)%nat ->
    nondecreasing 0 avails -> Forall (fun a => (a <= length D)%nat) avails ->
    calls (jcall D n) (jinit n w h ncomp) avails = RDone (x, inter) q ->
    internals_valid w h ncomp x /\ length inter = count_marker 255 (in_markers x) /\ q = n.
Proof.
  intros D n nc w h avails x inter q Hb Hn M L E.
  pose proof (calls_stable _ _ _ (jcall_stable D n (length D) Hb Hn (le_n _)) avails _ 0%nat (jinit_inv D n w h nc) M L) as S.
  rewrite E in S. destruct (jcall_good D n w h nc (length D) _ _ Hb Hn (le_n _) S) as [[A B] C].
  split; [exact A|]. split; [exact B|exact C].
Qed.
Print Assumptions C23_accepted_internals_are_valid.

(** Non-vacuity: two Huffman tables (one stock, one custom), a progressive scan
    with resets and zero runs, bytes between markers and padding bits. *)
Definition ex_stock : huffcode :=
  mkHC (pad_to 17 (0 :: nth 0 kStockDCCounts [])) (pad_to 257 (nth 0 kStockDCValues [])) 0 false.
Definition ex_custom : huffcode :=
  mkHC (pad_to 17 [0; 0; 2; 2; 1]) (pad_to 257 [1; 3; 17; 0; 256]) 17 true.
Definition ex_scan : scaninfo :=
  mkSI 1 63 0 2 [mkCS 0 1 3; mkCS 2 0 0] [3; 4; 900] [(5, 2); (77, 1)].
Definition ex_int : internals :=
  mkInt [224; 255; 196; 221; 218; 255; 217] 1234 [ex_stock; ex_custom] [ex_scan] [(0, false, 0); (1, true, 1)] [1; 2; 9] true [1; 0; 1].
Definition ex_inter : list (list Z) := [[1; 2; 3; 255; 0]; []].

Example C23_case :
  internals_ok 640 480 ex_int /\ length ex_inter = count_marker 255 (in_markers ex_int) /\ Forall bytes ex_inter /\
  match encode_aux 640 480 ex_int ex_inter with
  | Some out => calls (jcall (out ++ [7; 8]) (length out)) (jinit (length out) 640 480 3) [3; 4; 20; length out + 2]%nat
                = RDone (ex_int, ex_inter) (length out)
  | None => False
  end.
Proof.
  split; [|split; [reflexivity|split; [repeat constructor; unfold is_byte; lia|vm_compute; reflexivity]]].
  assert (P : forall h, (length (hc_counts h) =? 17)%nat && (length (hc_values h) =? 257)%nat && forallb (fun c => 0 <=? c) (hc_counts h) &&
                (nth 0 (hc_counts h) 0 =? 0) && forallb (fun v => v =? 0) (skipn (Z.to_nat (sumZ (hc_counts h))) (hc_values h)) = true ->
              (0 <= hc_slot h <= 3 \/ 16 <= hc_slot h <= 19) -> huff_ok h).
  { intros h. rewrite !andb_true_iff. intros ((((A & B) & C) & D) & E) F. apply Nat.eqb_eq in A, B. apply Z.eqb_eq in D.
    unfold huff_ok. repeat match goal with |- _ /\ _ => split end; auto; eapply Forall_of_b; try eassumption; cbv beta; lia. }
  unfold internals_ok. cbn [in_markers in_restart in_huff in_scans in_quant in_ids in_zero_pad in_padding ex_int].
  repeat match goal with |- _ /\ _ => split end; try (cbn; lia); try discriminate; try reflexivity.
  - exists [224; 255; 196; 221; 218; 255]. split; [reflexivity|]. repeat constructor; lia.
  - constructor; [apply P; [vm_compute; reflexivity|cbn; lia]|]. constructor; [apply P; [vm_compute; reflexivity|cbn; lia]|constructor].
  - constructor; [|constructor]. unfold scan_ok, ex_scan. cbn [si_ss si_se si_ah si_al si_comps si_resets si_zero_runs].
    repeat match goal with |- _ /\ _ => split end; try lia; try (cbn; lia).
    repeat constructor; cbn; lia.
  - repeat constructor; cbn; lia.
  - repeat constructor; lia.
  - repeat constructor; lia.
Qed.
