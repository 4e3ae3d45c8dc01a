(** C02 (storing a file loses nothing), C03 (the caller's buffer), C48 (what the encoder
    writes is recognised). *)
From Verif Require Import Base CodesModel CodesProofs Stream HeaderModel HeaderProofs Machine ContainerModel DriverModel DriverProofs GrammarProofs
  OutputModel OutputProofs PropsStream BypassModel.

(** What ReadJpeg guarantees about the header it read: dimensions up to 65535, one to four
    components, factors 1..15 (c/enc/jpeg_data_reader.cc:74-151, 1150-1160). *)
Definition seen_ok (h : seen_header) : Prop :=
  match h with
  | None => True
  | Some (w, hh, comps) => 1 <= w <= 65535 /\ 1 <= hh <= 65535 /\ (1 <= length comps <= 4)%nat /\ Forall samp_ok comps
  end.

(** * Writing into the buffer *)

Lemma put_ok mem pos bs : (pos + length bs <= length mem)%nat ->
  put mem pos bs = WOk (firstn pos mem ++ bs ++ skipn (pos + length bs) mem).
Proof. intros H. unfold put. destruct (Nat.leb_spec (pos + length bs) (length mem)); [reflexivity|lia]. Qed.

Lemma put_append pre mem bs : (length bs <= length mem)%nat ->
  put (pre ++ mem) (length pre) bs = WOk (pre ++ bs ++ skipn (length bs) mem).
Proof.
  intros H. rewrite put_ok by (rewrite app_length; lia). f_equal.
  rewrite firstn_app_exact. f_equal. f_equal. rewrite skipn_app, skipn_all2 by lia. cbn [Datatypes.app]. f_equal. lia.
Qed.

Lemma put_over pre old rest bs : length bs = length old -> put (pre ++ old ++ rest) (length pre) bs = WOk (pre ++ bs ++ rest).
Proof.
  intros H. rewrite put_append by (rewrite app_length; lia). f_equal. f_equal. f_equal. rewrite H. apply skipn_app_exact.
Qed.

Lemma small_section_size n k : 0 <= n < 2 ^ (7 * Z.of_nat k) -> (0 <? Z.shiftr n (7 * Z.of_nat k)) = false.
Proof. intros H. rewrite Z.shiftr_div_pow2 by lia. rewrite Z.div_small by lia. reflexivity. Qed.

(** With enough room a section is its marker, its size and its payload. *)
Lemma put_section_ok tag w k cap pre mem p : (length pre + length mem <= Z.to_nat cap)%nat ->
  (1 + k + length p <= length mem)%nat -> Z.of_nat (length p) < 2 ^ (7 * Z.of_nat k) ->
  w ((cap - Z.of_nat (length pre + 1 + k)) mod 2 ^ 64) = Some p ->
  put_section tag w k cap (pre ++ mem) (length pre) =
  WOk ((pre ++ section_marker tag :: encode_base128_fix (Z.of_nat (length p)) k ++ p) ++ skipn (1 + k + length p) mem, (length pre + (1 + k + length p))%nat).
Proof.
  intros Hc Hr Hs Hw. unfold put_section. rewrite put_append by (cbn [length]; lia). cbn [wbind length]. rewrite Hw.
  set (mk := section_marker tag). set (mid := firstn k (skipn 1 mem)).
  assert (M : skipn 1 mem = mid ++ skipn (1 + k) mem) by (unfold mid; rewrite <- (firstn_skipn k (skipn 1 mem)) at 1; rewrite (Nat.add_comm 1 k), skipn_add; reflexivity).
  assert (Lm : length mid = k) by (unfold mid; rewrite firstn_length, skipn_length; lia).
  rewrite M. replace (pre ++ [mk] ++ mid ++ skipn (1 + k) mem) with ((pre ++ [mk] ++ mid) ++ skipn (1 + k) mem) by (rewrite <- !app_assoc; reflexivity).
  replace (length pre + 1 + k)%nat with (length (pre ++ [mk] ++ mid)) by (rewrite !app_length; cbn [length]; lia).
  rewrite put_append by (rewrite skipn_length; lia). cbn [wbind]. rewrite small_section_size by lia.
  replace ((pre ++ [mk] ++ mid) ++ p ++ skipn (length p) (skipn (1 + k) mem)) with ((pre ++ [mk]) ++ mid ++ p ++ skipn (length p) (skipn (1 + k) mem)) by (rewrite <- !app_assoc; reflexivity).
  replace (length pre + 1)%nat with (length (pre ++ [mk])) by (rewrite app_length; cbn [length]; lia).
  rewrite put_over by (rewrite encode_base128_fix_length; lia). cbn [wbind]. f_equal. f_equal; [|rewrite !app_length; cbn [length]; lia].
  rewrite skipn_add, (Nat.add_comm (length p)). rewrite <- !app_assoc. cbn [Datatypes.app]. rewrite <- !app_assoc. reflexivity.
Qed.

(** * What the bypass encoder writes *)

Definition stored_stream (hp data : list Z) : list Z :=
  signature ++ (section_marker 2 :: encode_base128_fix (Z.of_nat (length hp)) 1 ++ hp)
  ++ (section_marker 9 :: encode_base128_fix (Z.of_nat (length data)) (base128_size (Z.of_nat (length data))) ++ data).

Lemma encode_base128_16 v : 0 <= v < 2 ^ 21 -> (length (encode_base128 v) <= 3)%nat.
Proof.
  intros H. unfold encode_base128. cbn [encode_base128_loop]. rewrite !shr7.
  repeat match goal with |- context [if 0 <? ?x then _ else _] => destruct (Z.ltb_spec 0 x); cbn [length]; [|lia] end.
  exfalso. revert H2. rewrite !Z.div_div by lia. rewrite Z.div_small by (change (2 ^ 21) with (128 * 128 * 128) in H; lia). lia.
Qed.

(** The header the bypass encoder writes: at most 16 bytes, decoded as "stored". *)
Lemma bypass_header_ok h : seen_ok h -> exists w hh n s, bypass_header h = Some (header_payload w hh (Z.of_nat n - 1 + 1 * 4) s) /\
  (length (header_payload w hh (Z.of_nat n - 1 + 1 * 4) s) <= 16)%nat /\ (1 <= n <= 4)%nat /\ 0 <= w <= 65535 /\ 0 <= hh <= 65535 /\ 0 <= s < 2 ^ 32 /\
  bytes (header_payload w hh (Z.of_nat n - 1 + 1 * 4) s).
Proof.
  assert (G : forall w hh comps, 0 <= w <= 65535 -> 0 <= hh <= 65535 -> (1 <= length comps <= 4)%nat -> Forall samp_ok comps ->
    exists n s, encode_header w hh 1 comps = Some (header_payload w hh (Z.of_nat n - 1 + 1 * 4) s) /\
    (length (header_payload w hh (Z.of_nat n - 1 + 1 * 4) s) <= 16)%nat /\ (1 <= n <= 4)%nat /\ 0 <= s < 2 ^ 32 /\ bytes (header_payload w hh (Z.of_nat n - 1 + 1 * 4) s)).
  { intros w hh comps Hw Hh Hl Hs. destruct (encode_header w hh 1 comps) as [p|] eqn:E.
    - destruct (encode_header_ok w hh 1 comps p Hw Hh ltac:(lia) Hs E) as (-> & _ & _ & B & _). exists (length comps), (frame_type_code comps 4 0).
      pose proof (frame_type_bound comps ltac:(lia) Hs) as F. split; [reflexivity|]. split; [|auto].
      unfold header_payload, encode_value. rewrite !app_length. cbn [length].
      pose proof (encode_base128_16 w ltac:(lia)). pose proof (encode_base128_16 hh ltac:(lia)). pose proof (encode_base128_short (frame_type_code comps 4 0) ltac:(lia)).
      assert (length (encode_base128 (Z.of_nat (length comps) - 1 + 1 * 4)) = 1)%nat.
      { assert (Hn : length comps = 1%nat \/ length comps = 2%nat \/ length comps = 3%nat \/ length comps = 4%nat) by lia. destruct Hn as [-> | [-> | [-> | ->]]]; reflexivity. }
      lia.
    - exfalso. unfold encode_header in E. change (Z.land 1 1 =? 1) with true in E. change (1 =? 1) with true in E. cbn [negb andb orb] in E.
      destruct (Nat.eqb_spec (length comps) 0); [lia|]. destruct (Nat.ltb_spec 4 (length comps)); [lia|]. discriminate. }
  destruct h as [[[w hh] comps]|]; cbn [seen_ok bypass_header].
  - intros (Hw & Hh & Hl & Hs). destruct (G w hh comps ltac:(lia) ltac:(lia) Hl Hs) as (n & s & A1 & A2 & A3 & A4 & A5). exists w, hh, n, s.
    repeat (split; [first [exact A1|exact A2|exact A3|exact A4|lia]|]). exact A5.
  - intros _. destruct (G 0 0 [(1, 1)] ltac:(lia) ltac:(lia) ltac:(cbn; lia)) as (n & s & A1 & A2 & A3 & A4 & A5).
    { repeat constructor; cbn; lia. }
    exists 0, 0, n, s. repeat (split; [first [exact A1|exact A2|exact A3|exact A4|lia]|]). exact A5.
Qed.

Lemma size_bytes n : 0 <= n < 2 ^ 63 -> (1 <= base128_size n <= 9)%nat /\ n < 2 ^ (7 * Z.of_nat (base128_size n)).
Proof.
  intros H. unfold base128_size. destruct (base128_size_ok 10 n ltac:(change (2 ^ (7 * Z.of_nat 10)) with (2 ^ 70); lia) ltac:(lia)) as (_ & A & B & C).
  split; [|exact A]. split; [lia|]. destruct (Nat.le_gt_cases (base128_size_loop 10 n) 9) as [|G]; [assumption|exfalso].
  assert (E : base128_size_loop 10 n = 10%nat) by lia. rewrite E in *. destruct (Z.leb_spec 128 n) as [L|L].
  - specialize (C L). change (2 ^ (7 * Z.of_nat (10 - 1))) with (2 ^ 63) in C. lia.
  - cbn [base128_size_loop] in E. destruct (Z.leb_spec 128 n); [lia|discriminate].
Qed.

Lemma encode_bypass_room h data cap mem hp : bypass_header h = Some hp -> (length hp <= 16)%nat ->
  Z.of_nat (length data) < 2 ^ 63 -> cap < 2 ^ 64 -> Z.of_nat (length mem) = cap -> Z.of_nat (length data) + 34 <= cap ->
  encode_bypass h (Some data) cap mem = WOk (stored_stream hp data).
Proof.
  intros Eh Lh Ld Hc Hm Hroom. unfold encode_bypass, put_signature. destruct (Z.ltb_spec cap 6); [lia|]. destruct (Z.ltb_spec (cap - 6) (Z.of_nat 0)); [lia|]. cbn [orb].
  pose proof (size_bytes (Z.of_nat (length data)) ltac:(lia)) as [Sb1 Sb2].
  change mem with ([] ++ mem) at 1. change O with (length (@nil Z)) at 1. rewrite put_append by (cbn [length signature]; lia). cbn [wbind Datatypes.app]. change (length (@nil Z) + 6)%nat with (length signature).
  rewrite (put_section_ok 2 _ 1 cap signature (skipn (length signature) mem) hp); [| |rewrite skipn_length; cbn [length signature]; lia|change (2 ^ (7 * Z.of_nat 1)) with 128; lia|exact Eh].
  2:{ rewrite skipn_length. cbn [length signature]. lia. }
  cbn [wbind]. set (k := base128_size (Z.of_nat (length data))) in *. set (pre := signature ++ _ :: _).
  replace (length signature + (1 + 1 + length hp))%nat with (length pre) by (unfold pre; rewrite app_length; cbn [length]; rewrite app_length, encode_base128_fix_length; lia).
  assert (Lp : length pre = (8 + length hp)%nat) by (unfold pre; rewrite app_length; cbn [length signature]; rewrite app_length, encode_base128_fix_length; lia).
  rewrite (put_section_ok 9 _ k cap pre _ data).
  - cbn [wbind]. f_equal. set (rest := skipn _ (skipn _ _)). rewrite <- (app_nil_r (stored_stream hp data)).
    replace (pre ++ _ :: _) with (stored_stream hp data) by (unfold stored_stream, pre; rewrite <- !app_assoc; reflexivity).
    replace (length pre + (1 + k + length data))%nat with (length (stored_stream hp data)).
    + rewrite firstn_app_exact, app_nil_r. reflexivity.
    + unfold stored_stream. fold k. rewrite !app_length. cbn [length signature]. rewrite !app_length, !encode_base128_fix_length. lia.
  - rewrite !skipn_length. cbn [length signature]. lia.
  - rewrite !skipn_length. cbn [length signature]. lia.
  - exact Sb2.
  - unfold original_writer. rewrite Z.mod_small by lia. destruct (Z.ltb_spec (cap - Z.of_nat (length pre + 1 + k)) (Z.of_nat (length data))); [lia|reflexivity].
Qed.

(** * Decoding it *)

Lemma brun_full {A} D (p : bprog A) pos x q r : bytes D -> (pos <= length D)%nat -> bfull p pos (skipn pos D) = Some (x, q, r) -> brun D None p pos (length D) = RDone x q.
Proof. intros Hb Hp E. pose proof (brun_bfull D Hb p pos _ eq_refl Hp) as F. rewrite E in F. apply F. Qed.

Lemma stored_stream_decodes B w hh n s data : (1 <= n <= 4)%nat -> 0 <= w <= 65535 -> 0 <= hh <= 65535 -> 0 <= s < 2 ^ 32 ->
  (length (header_payload w hh (Z.of_nat n - 1 + 1 * 4) s) <= 16)%nat -> bytes (header_payload w hh (Z.of_nat n - 1 + 1 * 4) s) -> bytes data -> Z.of_nat (length data) < 2 ^ 63 ->
  decode_once (decode_stream B) (stored_stream (header_payload w hh (Z.of_nat n - 1 + 1 * 4) s) data) = (StOk, Some (OOriginal data)).
Proof.
  intros Hn Hw Hh Hs Hl Hb Hd Ld. set (hp := header_payload w hh _ s) in *. pose proof (size_bytes (Z.of_nat (length data)) ltac:(lia)) as [Sb1 Sb2].
  set (k := base128_size (Z.of_nat (length data))) in *. set (D := stored_stream hp data).
  set (tl := section_marker 9 :: encode_base128_fix (Z.of_nat (length data)) k ++ data).
  assert (ED : D = signature ++ section_marker 2 :: encode_base128_fix (Z.of_nat (length hp)) 1 ++ hp ++ tl) by (unfold D, stored_stream, tl, k; rewrite <- app_comm_cons, <- !app_assoc; reflexivity).
  assert (LD : length D = (8 + length hp + (1 + k + length data))%nat) by (rewrite ED; unfold tl; rewrite app_length; cbn [length signature]; rewrite !app_length; cbn [length]; rewrite !app_length, !encode_base128_fix_length; lia).
  assert (HB : bytes D).
  { rewrite ED. unfold tl. apply Forall_app. split; [repeat constructor; cbn; lia|]. constructor; [unfold section_marker, is_byte; lia|].
    apply Forall_app. split; [apply encode_base128_fix_bytes; lia|]. apply Forall_app. split; [exact Hb|]. constructor; [unfold section_marker, is_byte; lia|].
    apply Forall_app. split; [apply encode_base128_fix_bytes; lia|exact Hd]. }
  assert (R : mrun D (decode_stream B) 0 (length D) = RDone (OOriginal data) (length D)).
  { unfold decode_stream. cbn [mrun]. destruct (Nat.leb_spec (0 + 6) (length D)); [|lia].
    replace (slice D 0 (0 + 6)) with signature by (rewrite ED; reflexivity). change (verify_signature signature) with SigOk. cbv iota. change (0 + 6)%nat with 6%nat.
    cbn [mrun]. rewrite (brun_full D decode_header 6 HFallback (6 + 2 + length hp) tl HB); [|lia|].
    2:{ rewrite ED at 1. change 6%nat with (length signature) at 2. rewrite skipn_app_exact. rewrite (decode_header_run hp tl 6 w hh (Z.of_nat n - 1 + 1 * 4) s); [|reflexivity|lia..].
        rewrite header_finale_fallback by exact Hn. reflexivity. }
    cbn [mrun]. rewrite (brun_full D decode_original (6 + 2 + length hp) data (length D) [] HB); [reflexivity|lia|].
    replace (skipn (6 + 2 + length hp) D) with tl.
    2:{ rewrite ED. replace (signature ++ section_marker 2 :: encode_base128_fix (Z.of_nat (length hp)) 1 ++ hp ++ tl) with ((signature ++ section_marker 2 :: encode_base128_fix (Z.of_nat (length hp)) 1 ++ hp) ++ tl) by (rewrite <- !app_assoc; cbn [Datatypes.app]; rewrite <- !app_assoc; reflexivity).
        replace (6 + 2 + length hp)%nat with (length (signature ++ section_marker 2 :: encode_base128_fix (Z.of_nat (length hp)) 1 ++ hp)) by (rewrite app_length; cbn [length signature]; rewrite app_length, encode_base128_fix_length; lia).
        rewrite skipn_app_exact. reflexivity. }
    unfold decode_original, tl. change (section_marker 9) with (if true then section_marker 9 else value_marker 9). rewrite bfull_tag by (try lia; reflexivity).
    change (negb (9 =? 9) || negb true) with false. cbv iota. rewrite bfull_base128_fix by lia. cbn [bfull].
    rewrite Nat2Z.id. destruct (Z.leb_spec (Z.of_nat (length data)) (Z.of_nat (length data))); [|lia].
    rewrite firstn_all, skipn_all. cbn [Datatypes.app]. do 3 f_equal. lia. }
  unfold decode_once, do_process. rewrite R. unfold finish. rewrite Nat.eqb_refl. reflexivity.
Qed.

(** * C02 *)

(** A buffer of GetBrunsliBypassSize(n) bytes (or more) is enough for every file of n
    bytes, whatever the buffer held and whatever the header scan saw; the result is no
    longer than that, and decoding it gives back exactly the file. *)
Theorem C02_bypass_is_lossless : forall h data cap mem, seen_ok h -> bytes data ->
  Z.of_nat (length data) < 2 ^ 63 -> cap < 2 ^ 64 -> Z.of_nat (length mem) = cap -> bypass_size (Z.of_nat (length data)) <= cap ->
  exists out, encode_bypass h (Some data) cap mem = WOk out /\ bytes out /\
    Z.of_nat (length out) <= bypass_size (Z.of_nat (length data)) /\
    forall B, decode_once (decode_stream B) out = (StOk, Some (OOriginal data)).
Proof.
  intros h data cap mem Hs Hd Hl Hc Hm Hr. unfold bypass_size in *. destruct (bypass_header_ok h Hs) as (w & hh & n & s & A1 & A2 & A3 & A4 & A5 & A6 & A7).
  eexists. split; [apply (encode_bypass_room h data cap mem _ A1 A2); lia|]. pose proof (size_bytes (Z.of_nat (length data)) ltac:(lia)) as [Sb1 Sb2].
  split; [|split].
  - unfold stored_stream. apply Forall_app. split; [repeat constructor; cbn; lia|]. constructor; [unfold section_marker, is_byte; lia|].
    apply Forall_app. split; [apply Forall_app; split; [apply encode_base128_fix_bytes; lia|exact A7]|]. constructor; [unfold section_marker, is_byte; lia|].
    apply Forall_app. split; [apply encode_base128_fix_bytes; lia|exact Hd].
  - unfold stored_stream. rewrite !app_length. cbn [length signature]. rewrite !app_length, !encode_base128_fix_length. lia.
  - intros B. apply stored_stream_decodes; assumption.
Qed.
Print Assumptions C02_bypass_is_lossless.

(** jpeg_data_writer.cc:1000-1016 with brunsli_decode.cc:1978-2044: a stored file is handed
    out as it is; an empty one left the pointer null and is an error. *)
Definition stored_info {I} (o : outcome I) : start_result :=
  match o with OOriginal [] => SrFallback None | OOriginal d => SrFallback (Some d) | OImage _ => SrMarkers end.
Definition shows_stored {I} (R : serializer) (look : outcome I -> sr_info R) : Prop :=
  forall o d, o = OOriginal d -> sr_start R (look o) = stored_info o.

(** Through the C interface: for a non-empty file and a sink that takes everything, the
    pieces the sink gets make up the file, and the result is 1. *)
Theorem C02_bypass_through_decode_brunsli : forall h data cap mem B R look K k, seen_ok h -> bytes data -> data <> [] ->
  Z.of_nat (length data) < 2 ^ 63 -> cap < 2 ^ 64 -> Z.of_nat (length mem) = cap -> bypass_size (Z.of_nat (length data)) <= cap ->
  shows_stored R look -> (forall pieces, accepts K k pieces) ->
  exists out fuel pieces, encode_bypass h (Some data) cap mem = WOk out /\
    decode_brunsli B R look K k fuel out = Some (1, pieces) /\ concat pieces = data.
Proof.
  intros h data cap mem B R look K k Hs Hd Hne Hl Hc Hm Hr HR HK. destruct (C02_bypass_is_lossless h data cap mem Hs Hd Hl Hc Hm Hr) as (out & E & _ & _ & Dec). specialize (Dec B).
  destruct (C44_terminates B R look K k out) as (fuel & [ret pieces] & T). exists out, fuel, pieces. split; [exact E|].
  assert (W : whole_output R (look (OOriginal data)) = Some data).
  { unfold whole_output, emit. rewrite (HR (OOriginal data) data eq_refl). unfold stored_info. destruct data as [|d0 dt]; [congruence|]. reflexivity. }
  destruct (C44_success_means_all_accepted B R look K k fuel out ret pieces T) as ([-> | ->] & F1 & F0).
  - destruct (F1 eq_refl) as (x & o & G1 & G2 & G3 & _). rewrite Dec in G1. apply f_equal with (f := snd) in G1. cbn [snd] in G1. apply InternalsProofs.some_inj in G1. subst x. rewrite W in G2. injection G2 as <-. split; [exact T|exact G3].
  - destruct (F0 eq_refl _ _ Dec W (HK pieces)).
Qed.
Print Assumptions C02_bypass_through_decode_brunsli.

(** The empty file is stored, but decoding the result to a sink fails. *)
Theorem C02_empty_file_refuted : exists out, encode_bypass None (Some []) (bypass_size 0) (repeat 0 36) = WOk out /\
  forall B R look K k fuel, shows_stored R look -> fuel <> O -> decode_brunsli B R look K k fuel out = Some (0, []).
Proof.
  destruct (C02_bypass_is_lossless None [] (bypass_size 0) (repeat 0 36) I ltac:(constructor) ltac:(cbn; lia) ltac:(reflexivity) eq_refl ltac:(reflexivity)) as (out & E & _ & _ & Dec).
  exists out. split; [exact E|]. intros B R look K k fuel HR Hf. unfold decode_brunsli. rewrite Dec. destruct fuel as [|f]; [congruence|]. cbn [write_jpeg].
  unfold serialize. cbn [ss_stage ss_queue push_output]. rewrite (HR (OOriginal []) [] eq_refl). reflexivity.
Qed.
Print Assumptions C02_empty_file_refuted.

Example C02_case : encode_bypass (Some (17, 9, [(2, 1); (1, 1); (1, 1)])) (Some [255; 216; 255; 217]) 60 (repeat 85 60)
  = WOk [10; 4; 66; 210; 213; 78; 18; 8; 8; 17; 16; 9; 24; 6; 32; 16; 74; 4; 255; 216; 255; 217].
Proof. vm_compute. reflexivity. Qed.

(** * C03 *)

(** From 34 bytes on (or below 6) nothing is written outside the buffer. *)
Theorem C03_never_writes_outside_partial : forall h data cap mem, seen_ok h ->
  Z.of_nat (length (match data with Some d => d | None => [] end)) < 2 ^ 63 -> 0 <= cap < 2 ^ 64 -> Z.of_nat (length mem) = cap -> cap < 6 \/ 34 <= cap ->
  encode_bypass h data cap mem <> WOut.
Proof.
  intros h data cap mem Hs Hl Hc Hm Hr. destruct (bypass_header_ok h Hs) as (w & hh & n & s & A1 & A2 & _).
  unfold encode_bypass, put_signature. destruct (Z.ltb_spec cap 6); [discriminate|]. destruct (Z.ltb_spec (cap - 6) (Z.of_nat 0)); [discriminate|]. cbn [orb].
  destruct Hr as [|Hr]; [lia|]. set (hp := header_payload w hh _ s) in *.
  change mem with ([] ++ mem) at 1. change O with (length (@nil Z)) at 1. rewrite put_append by (cbn [length signature]; lia). cbn [wbind Datatypes.app]. change (length (@nil Z) + 6)%nat with (length signature).
  rewrite (put_section_ok 2 _ 1 cap signature (skipn (length signature) mem) hp); [| |rewrite skipn_length; cbn [length signature]; lia|change (2 ^ (7 * Z.of_nat 1)) with 128; lia|exact A1].
  2:{ rewrite skipn_length. cbn [length signature]. lia. }
  cbn [wbind]. set (pre := signature ++ _ :: _).
  replace (length signature + (1 + 1 + length hp))%nat with (length pre) by (unfold pre; rewrite app_length; cbn [length]; rewrite app_length, encode_base128_fix_length; lia).
  assert (Lp : length pre = (8 + length hp)%nat) by (unfold pre; rewrite app_length; cbn [length signature]; rewrite app_length, encode_base128_fix_length; lia).
  set (rest := skipn (1 + 1 + length hp) (skipn (length signature) mem)).
  assert (Lr : Z.of_nat (length pre + length rest) = cap) by (unfold rest; rewrite !skipn_length; cbn [length signature]; lia).
  set (k := base128_size _). assert (Hk : (k <= 9)%nat).
  { unfold k. destruct data as [d|]; [cbv beta iota in Hl; apply (size_bytes (Z.of_nat (length d))); lia|apply (size_bytes 0); lia]. }
  unfold put_section. rewrite put_append by (cbn [length]; lia). cbn [wbind length].
  destruct data as [d|]; [|discriminate]. cbv beta iota in Hl. unfold original_writer. rewrite Z.mod_small by lia.
  destruct (Z.ltb_spec (cap - Z.of_nat (length pre + 1 + k)) (Z.of_nat (length d))); [discriminate|].
  assert (Lm : forall m, length m = 1%nat -> length (pre ++ m ++ skipn 1 rest) = Z.to_nat cap) by (intros m E; rewrite !app_length, skipn_length; lia).
  rewrite put_ok by (rewrite Lm by reflexivity; lia). cbn [wbind]. destruct (0 <? _); [discriminate|].
  rewrite put_ok.
  - discriminate.
  - rewrite encode_base128_fix_length, !app_length, firstn_length, skipn_length, !app_length, skipn_length. cbn [length]. lia.
Qed.
Print Assumptions C03_never_writes_outside_partial.

(** Between 6 and 33 bytes it can: with a buffer of 6 bytes the marker of the header
    section is written to byte 6; with 16 bytes the marker of the second section is.  (With
    17 bytes [len - *pos] also wraps around and the room given to the writer looks endless.) *)
Theorem C03_small_buffer_refuted :
  encode_bypass None (Some [255; 216]) 6 (repeat 0 6) = WOut /\
  (forall data, Z.of_nat (length data) < 2 ^ 63 -> encode_bypass None (Some data) 16 (repeat 0 16) = WOut).
Proof.
  split; [vm_compute; reflexivity|]. intros data Hd. pose proof (size_bytes (Z.of_nat (length data)) ltac:(lia)) as [Sb _].
  unfold encode_bypass. change (put_signature 16 (repeat 0 16) 0) with (WOk (signature ++ repeat 0 10, 6%nat)). cbn [wbind].
  change (put_section 2 (fun _ => bypass_header None) 1 16 (signature ++ repeat 0 10) 6) with (WOk (signature ++ [18; 8; 8; 0; 16; 0; 24; 4; 32; 0], 16%nat)). cbn [wbind].
  reflexivity.
Qed.
Print Assumptions C03_small_buffer_refuted.

Example C03_case : encode_bypass None (Some (repeat 7 30)) 34 (repeat 0 34) = WRefused /\ encode_bypass None (Some (repeat 7 16)) 34 (repeat 0 34) <> WRefused.
Proof. vm_compute. split; [reflexivity|discriminate]. Qed.

(** * C48, the encoder's side *)

Theorem C48_stored_files_are_recognised : forall h data cap mem out, seen_ok h -> bytes data ->
  Z.of_nat (length data) < 2 ^ 63 -> cap < 2 ^ 64 -> Z.of_nat (length mem) = cap -> bypass_size (Z.of_nat (length data)) <= cap ->
  encode_bypass h (Some data) cap mem = WOk out -> is_brunsli out = true.
Proof.
  intros h data cap mem out Hs Hd Hl Hc Hm Hr E. unfold bypass_size in *. destruct (bypass_header_ok h Hs) as (w & hh & n & s & A1 & A2 & _).
  rewrite (encode_bypass_room h data cap mem _ A1 A2) in E by lia. injection E as <-. reflexivity.
Qed.
Print Assumptions C48_stored_files_are_recognised.
