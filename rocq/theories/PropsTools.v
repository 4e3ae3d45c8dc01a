(** C64: the command-line tools cbrunsli and dbrunsli. *)
From Verif Require Import Base JpegModel JBitModel JFileModel Stream Machine ContainerModel MetaModel Decoder Encoder SizeModel
  HSecModel JpegSpec PropsJpegFile PropsMeta PropsContainer EstimateModel EstimateProofs ToolModel.

(** * Specification *)

(** The C library does what it is asked for. *)
Definition reads_well (x : reading) : Prop := rd_open x = true /\ rd_seek_end x = true /\ rd_tell x = true /\ rd_seek_set x = true /\ (forall i, (0 < rd_some x i)%nat) /\ rd_close x = true.
Definition writes_well (w : writing) : Prop := wr_open w = true /\ (forall i, (0 < wr_some w i)%nat) /\ wr_close w = true.
Definition shorter_than (n : Z) (f : files) (a : name) : Prop := forall c, f a = Some c -> Z.of_nat (length c) < n.
(** The files are the same but for one of them, which is as it was or the beginning of [content]. *)
Definition only_changes (f f' : files) (out : name) (content : list Z) : Prop :=
  (forall m, m <> out -> f' m = f m) /\ (f' out = f out \/ exists k, f' out = Some (firstn k content)).

(** * Reading and writing *)
Lemma put_same f n c : put f n c n = Some c.
Proof. unfold put. destruct (list_eq_dec Z.eq_dec n n); congruence. Qed.
Lemma put_other f n c m : m <> n -> put f n c m = f m.
Proof. unfold put. destruct (list_eq_dec Z.eq_dec m n); congruence. Qed.

Lemma fread_ok fuel some : forall i rest want l, fread_loop fuel some i rest want = Some l -> (want <= length rest)%nat /\ l = firstn want rest.
Proof.
  induction fuel as [|f IH]; intros i rest want l E; [discriminate|]. cbn [fread_loop] in E. destruct (Nat.eqb_spec want 0) as [->|N].
  { injection E as <-. split; [lia|reflexivity]. }
  cbv zeta in E. set (n := Nat.min (some i) (Nat.min want (length rest))) in *. destruct (Nat.eqb_spec n 0) as [|N0]; [discriminate|].
  destruct (fread_loop f some (S i) (skipn n rest) (want - n)) as [r|] eqn:Er; [|discriminate]. cbv beta iota delta [obind] in E. injection E as <-.
  destruct (IH _ _ _ _ Er) as [L ->]. rewrite skipn_length in L. split; [lia|].
  rewrite <- (firstn_skipn n rest) at 3. rewrite firstn_app, firstn_length, firstn_firstn. rewrite (Nat.min_r want n) by lia. rewrite (Nat.min_l n) by lia. reflexivity.
Qed.

Lemma fread_total fuel some : (forall i, (0 < some i)%nat) -> forall i rest want, (want < fuel)%nat -> (want <= length rest)%nat -> fread_loop fuel some i rest want = Some (firstn want rest).
Proof.
  intros P. induction fuel as [|f IH]; intros i rest want Hf Hl; [lia|]. destruct (fread_loop (S f) some i rest want) as [l|] eqn:E.
  { apply fread_ok in E as [_ ->]. reflexivity. }
  exfalso. cbn [fread_loop] in E. destruct (Nat.eqb_spec want 0) as [|N]; [discriminate|]. cbv zeta in E. specialize (P i).
  set (n := Nat.min (some i) (Nat.min want (length rest))) in *. destruct (Nat.eqb_spec n 0) as [|N0]; [lia|].
  rewrite IH in E by (rewrite ?skipn_length; lia). discriminate.
Qed.

Lemma fwrite_ok fuel some : forall i want, (fst (fwrite_loop fuel some i want) <= want)%nat /\ (snd (fwrite_loop fuel some i want) = true -> fst (fwrite_loop fuel some i want) = want).
Proof.
  induction fuel as [|f IH]; intros i want; cbn [fwrite_loop]; [cbn [fst snd]; split; [lia|discriminate]|]. destruct (Nat.eqb_spec want 0) as [->|N]; [cbn [fst snd]; split; auto|].
  cbv zeta. set (n := Nat.min (some i) want). destruct (Nat.eqb_spec n 0) as [|N0]; [cbn [fst snd]; split; [lia|discriminate]|]. cbn [fst snd].
  destruct (IH (S i) (want - n)%nat) as [A B]. split; [lia|]. intros H. specialize (B H). lia.
Qed.

Lemma fwrite_total fuel some : (forall i, (0 < some i)%nat) -> forall i want, (want < fuel)%nat -> snd (fwrite_loop fuel some i want) = true.
Proof.
  intros P. induction fuel as [|f IH]; intros i want H; [lia|]. cbn [fwrite_loop]. destruct (Nat.eqb_spec want 0); [reflexivity|]. cbv zeta. specialize (P i).
  destruct (Nat.eqb_spec (Nat.min (some i) want) 0) as [|N0]; [lia|]. cbn [snd]. apply IH. lia.
Qed.

Lemma to_int_small v : 0 <= v < 2 ^ 31 -> to_int v = v.
Proof. intros H. unfold to_int. rewrite Z.mod_small by (change (2 ^ 32) with (2 * 2 ^ 31); lia). lia. Qed.
Lemma to_int_le v : 0 <= v -> to_int v <= v.
Proof. intros H. unfold to_int. pose proof (Z.mod_le (v + 2 ^ 31) (2 ^ 32) ltac:(lia) ltac:(lia)). lia. Qed.

(** What ReadFile hands on is always the beginning of the file, never empty, and all of it below 2 GB. *)
Lemma read_file_ok x content l : read_file x content = (Success, l) ->
  exists c, content = Some c /\ l <> [] /\ l = firstn (Z.to_nat (to_int (Z.of_nat (length c)))) c /\ (exists rest, c = l ++ rest) /\ (Z.of_nat (length c) < 2 ^ 31 -> l = c).
Proof.
  unfold read_file. destruct content as [c|]; [|discriminate]. intros E. exists c. split; [reflexivity|].
  destruct (rd_open x); [|discriminate]. destruct (rd_seek_end x); [|discriminate]. cbn [negb] in E. cbv zeta in E.
  destruct (rd_tell x). 2: { replace (to_int (-1)) with (-1) in E by reflexivity. cbn [Z.eqb] in E. destruct (rd_seek_set x); discriminate. }
  destruct (Z.eqb_spec (to_int (Z.of_nat (length c))) 0) as [|N0]; [discriminate|]. destruct (rd_seek_set x); [|discriminate]. cbn [negb] in E.
  destruct (Z.ltb_spec (to_int (Z.of_nat (length c))) 0) as [|P]; [discriminate|].
  destruct (fread_loop _ _ _ _ _) as [r|] eqn:Er; [|discriminate]. destruct (rd_close x); [|discriminate]. injection E as <-. apply fread_ok in Er as [L ->].
  split. { intros A. apply (f_equal (@length Z)) in A. rewrite firstn_length in A. cbn [length] in A. lia. }
  split; [reflexivity|]. split. { eexists. symmetry. apply firstn_skipn. }
  intros H. rewrite to_int_small by lia. rewrite Nat2Z.id. apply firstn_all.
Qed.

Lemma read_file_total x c : reads_well x -> c <> [] -> Z.of_nat (length c) < 2 ^ 31 -> read_file x (Some c) = (Success, c).
Proof.
  intros (H1 & H2 & H3 & H4 & H5 & H6) HN HL. unfold read_file. rewrite H1, H2, H3, H4, H6. cbn [negb]. cbv zeta. rewrite to_int_small by lia.
  assert (LP : (0 < length c)%nat) by (destruct c; [congruence|cbn [length]; lia]).
  destruct (Z.eqb_spec (Z.of_nat (length c)) 0); [lia|]. destruct (Z.ltb_spec (Z.of_nat (length c)) 0); [lia|]. rewrite Nat2Z.id.
  rewrite fread_total by (auto; lia). rewrite firstn_all. reflexivity.
Qed.

Lemma write_file_ok w f out content e f' : write_file w f out content = (e, f') ->
  only_changes f f' out content /\ (e = Success -> f' out = Some content) /\ (e = Success \/ e = Failure).
Proof.
  unfold write_file. destruct (wr_open w); cbn [negb]. 2: { intros E. injection E as <- <-. split; [split; auto|]. split; [discriminate|auto]. }
  cbv zeta. destruct (fwrite_ok (S (length content)) (wr_some w) 0 (length content)) as [L F]. set (r := fwrite_loop _ _ _ _) in *.
  assert (K : forall k, only_changes f (put f out (firstn k content)) out content) by (intros k; split; [intros; apply put_other; auto|right; exists k; apply put_same]).
  destruct (snd r) eqn:Es; [destruct (wr_close w)|]; cbn [andb]; intros E; injection E as <- <-; (split; [apply K|]); (split; [|auto]); try discriminate.
  intros _. rewrite put_same, (F eq_refl), firstn_all. reflexivity.
Qed.

Lemma write_file_total w f out content : writes_well w -> write_file w f out content = (Success, put f out content).
Proof.
  intros (H1 & H2 & H3). unfold write_file. rewrite H1, H3. cbn [negb]. cbv zeta. rewrite fwrite_total by (auto; lia). cbn [andb].
  destruct (fwrite_ok (S (length content)) (wr_some w) 0 (length content)) as [_ F]. rewrite F, firstn_all by (apply fwrite_total; auto; lia). reflexivity.
Qed.

(** A proper beginning of an accepted stream is not accepted. *)
Lemma accepted_prefix B D1 D2 o o' : bytes (D1 ++ D2) -> brunsli_decode_jpeg B (D1 ++ D2) = (StOk, Some o) -> brunsli_decode_jpeg B D1 = (StOk, Some o') -> D2 = [].
Proof.
  intros Hb E E'. destruct D2 as [|b D2]; [reflexivity|]. exfalso.
  assert (Q : forall D x, brunsli_decode_jpeg B D = (StOk, Some x) -> exists r, decode_once (decode_stream (real_bodies B)) D = (StOk, Some r)).
  { intros D x. unfold brunsli_decode_jpeg. destruct (decode_once _ D) as [st [[p|d]|]]; [destruct (picture_jpeg p)| |]; intros H; inversion H; eauto. }
  destruct (Q _ _ E) as (r & Er). destruct (Q _ _ E') as (r' & Er'). pose proof (est_parse_prefix B D1 (b :: D2) r Hb ltac:(discriminate) Er) as N.
  assert (B1 : bytes D1) by (apply bytes_app in Hb; apply Hb). pose proof (est_parse_ok B D1 r' B1 Er') as Y. rewrite N in Y. destruct r'; [destruct Y as (? & Y & _)|]; discriminate.
Qed.

(** * The tools *)

Lemma compress_ok O x f inp out : compress_input O x f inp = (Success, out) ->
  exists input j, read_file x (f inp) = (Success, input) /\ read_jpeg RAll input = JOk j /\ max_encoded_size j < 2 ^ 63 /\ brunsli_encode_jpeg O j (max_encoded_size j) = Some out.
Proof.
  unfold compress_input. destruct (read_file x (f inp)) as [[| | |] input]; try discriminate. destruct (read_jpeg RAll input) as [j| |] eqn:Ej; try discriminate.
  destruct (Z.leb_spec (2 ^ 63) (max_encoded_size j)); [discriminate|]. destruct (brunsli_encode_jpeg O j (max_encoded_size j)) as [o|] eqn:Eo; [|discriminate].
  intros E. injection E as <-. eauto 10.
Qed.

Lemma expand_ok B x f inp out : expand_input B x f inp = (Success, out) ->
  exists input o, read_file x (f inp) = (Success, input) /\ brunsli_decode_jpeg B input = (StOk, Some o) /\
    match o with OImage j => write_jpeg j = JOk out | OOriginal d => out = d end.
Proof.
  unfold expand_input. destruct (read_file x (f inp)) as [[| | |] input]; try discriminate.
  destruct (brunsli_decode_jpeg B input) as [[| |] [[j|d]|]] eqn:Ed; try discriminate.
  - destruct (write_jpeg j) eqn:Ew; try discriminate. intros E. injection E as <-. exists input, (OImage j). auto.
  - intros E. injection E as <-. exists input, (OOriginal d). auto.
Qed.

Lemma tool_ok suffix work w f args e f' : tool suffix work w f args = (e, f') ->
  (e <> Success /\ f' = f) \/ exists inp out content, file_names suffix args = Some (inp, out) /\ work f inp = (Success, content) /\ write_file w f out content = (e, f').
Proof.
  unfold tool. destruct (file_names suffix args) as [[inp out]|] eqn:En. 2: { intros E. injection E as <- <-. left. split; [discriminate|reflexivity]. }
  destruct (work f inp) as [[| | |] c] eqn:Ew; intros E; [right; exists inp, out, c; auto|..]; injection E as <- <-; left; (split; [discriminate|reflexivity]).
Qed.

(** What compression puts on the disk: a stream that restores the input. *)
Lemma compressed_restores B O x f inp out file : f inp = Some file -> bytes file -> Z.of_nat (length file) < 2 ^ 31 ->
  brotli_inverse B (or_compress O) -> (forall i n, 0 <= ch_rnd (or_round O i) n <= 1024) -> compress_input O x f inp = (Success, out) ->
  bytes out /\ exists j, brunsli_decode_jpeg B out = (StOk, Some (OImage j)) /\ write_jpeg j = JOk file.
Proof.
  intros Hf Y L HB HR E. destruct (compress_ok _ _ _ _ _ E) as (input & j & R & J & M & EE). destruct (read_file_ok _ _ _ R) as (c & Ec & _ & _ & _ & F).
  rewrite Hf in Ec. injection Ec as <-. rewrite (F L) in J. change (2 ^ 31) with 2147483648 in L.
  destruct (C01_file_round_trip B O file j _ out Y ltac:(change (2 ^ 32) with 4294967296; lia) J HB HR M EE) as (Ho & _ & D & W). split; [exact Ho|]. eauto.
Qed.

Lemma expand_prefix B x f inp out stream k j file : f inp = Some (firstn k stream) -> bytes stream -> brunsli_decode_jpeg B stream = (StOk, Some (OImage j)) -> write_jpeg j = JOk file ->
  expand_input B x f inp = (Success, out) -> out = file.
Proof.
  intros Hf Y D W E. destruct (expand_ok _ _ _ _ _ E) as (input & o & R & D' & M). destruct (read_file_ok _ _ _ R) as (c & Ec & _ & _ & (rest & Er) & _).
  rewrite Hf in Ec. injection Ec as <-. assert (S : stream = input ++ rest ++ skipn k stream) by (rewrite app_assoc, <- Er; symmetry; apply firstn_skipn).
  rewrite S in Y, D. pose proof (accepted_prefix _ _ _ _ _ Y D D') as Z0. rewrite Z0, app_nil_r in D. rewrite D in D'. injection D' as <-. cbv beta iota in M. rewrite W in M. congruence.
Qed.

(** * Theorems *)

(** If cbrunsli exits with success on a file of less than 2 GB and then dbrunsli exits with success on what cbrunsli has written, dbrunsli's output
    is the file, byte by byte; however many bytes fread and fwrite take at a time and whatever else is on the disk. *)
Theorem C64_round_trip : forall (B : brotli) (O : oracle) x1 w1 x2 w2 (f f1 f2 : files) (a b c : name) (file : list Z),
  f a = Some file -> bytes file -> Z.of_nat (length file) < 2 ^ 31 ->
  brotli_inverse B (or_compress O) -> (forall i n, 0 <= ch_rnd (or_round O i) n <= 1024) ->
  cbrunsli O x1 w1 f [a; b] = (Success, f1) -> dbrunsli B x2 w2 f1 [b; c] = (Success, f2) -> f2 c = Some file.
Proof.
  intros B O x1 w1 x2 w2 f f1 f2 a b c file Hf Y L HB HR E1 E2.
  destruct (tool_ok _ _ _ _ _ _ _ E1) as [[N _]|(inp & out & s & En & Ec & Ew)]; [congruence|]. cbn [file_names] in En. destruct (length a =? 0)%nat; [discriminate|]. injection En as <- <-.
  destruct (compressed_restores B O x1 f a s file Hf Y L HB HR Ec) as (Ys & j & D & W). destruct (write_file_ok _ _ _ _ _ _ Ew) as (_ & S1 & _). specialize (S1 eq_refl).
  destruct (tool_ok _ _ _ _ _ _ _ E2) as [[N _]|(inp & out & s' & En & Ec' & Ew')]; [congruence|]. cbn [file_names] in En. destruct (length b =? 0)%nat; [discriminate|]. injection En as <- <-.
  destruct (write_file_ok _ _ _ _ _ _ Ew') as (_ & S2 & _). rewrite (S2 eq_refl). f_equal.
  rewrite <- (firstn_all s) in S1. exact (expand_prefix B x2 f1 b s' s _ j file S1 Ys D W Ec').
Qed.
Print Assumptions C64_round_trip.

(** And both do exit with success if the file system works, the encoder succeeds and the stream is below 2 GB; also with the names left out. *)
Theorem C64_round_trip_succeeds : forall (B : brotli) (O : oracle) x1 w1 x2 w2 (f : files) (a : name) (file : list Z) j stream,
  f a = Some file -> a <> [] -> bytes file -> Z.of_nat (length file) < 2 ^ 31 ->
  brotli_inverse B (or_compress O) -> (forall i n, 0 <= ch_rnd (or_round O i) n <= 1024) ->
  reads_well x1 -> writes_well w1 -> reads_well x2 -> writes_well w2 ->
  read_jpeg RAll file = JOk j -> max_encoded_size j < 2 ^ 63 -> brunsli_encode_jpeg O j (max_encoded_size j) = Some stream -> Z.of_nat (length stream) < 2 ^ 31 ->
  exists f1 f2, cbrunsli O x1 w1 f [a] = (Success, f1) /\ dbrunsli B x2 w2 f1 [a ++ [46; 98; 114; 110]] = (Success, f2) /\
    f2 (a ++ [46; 98; 114; 110; 46; 106; 112; 103]) = Some file /\ f2 a = Some file.
Proof.
  intros B O x1 w1 x2 w2 f a file j s Hf Na Y L HB HR X1 W1 X2 W2 R M E Ls. change (2 ^ 31) with 2147483648 in *.
  destruct (C01_file_round_trip B O file j _ s Y ltac:(change (2 ^ 32) with 4294967296; lia) R HB HR M E) as (Ys & _ & D & W).
  assert (NF : file <> []) by (intros ->; vm_compute in R; discriminate).
  assert (NS : s <> []) by (intros ->; assert (Q : fst (brunsli_decode_jpeg B []) <> StOk) by (vm_compute; discriminate); rewrite D in Q; apply Q; reflexivity).
  assert (La : (length a =? 0)%nat = false) by (destruct a; [congruence|reflexivity]).
  exists (put f (a ++ dot_brn) s), (put (put f (a ++ dot_brn) s) ((a ++ dot_brn) ++ dot_jpg) file). unfold cbrunsli, dbrunsli, tool. cbn [file_names]. rewrite La.
  unfold compress_input. rewrite Hf, (read_file_total x1 file X1 NF L), R. destruct (Z.leb_spec (2 ^ 63) (max_encoded_size j)); [lia|]. rewrite E. rewrite (write_file_total w1 _ _ _ W1). split; [reflexivity|].
  fold dot_brn. assert (Lb : (length (a ++ dot_brn) =? 0)%nat = false) by (destruct a; reflexivity). rewrite Lb.
  unfold expand_input. rewrite put_same, (read_file_total x2 s X2 NS Ls), D, W, (write_file_total w2 _ _ _ W2). split; [reflexivity|]. change (46 :: 98 :: 114 :: 110 :: [46; 106; 112; 103]) with (dot_brn ++ dot_jpg). rewrite app_assoc.
  split; [apply put_same|]. rewrite !put_other; [exact Hf|..]; intros A; apply (f_equal (@length Z)) in A; rewrite !app_length in A; cbn [dot_brn dot_jpg length] in A; lia.
Qed.
Print Assumptions C64_round_trip_succeeds.

(** Whatever happens, exit code or exception, only the output file is touched, and it holds what it held or a beginning of the right output;
    all of it if the exit code says success.  With [a <> b] the input is always still there. *)
Theorem C64_outcome : forall (O : oracle) x w (f f' : files) (a b : name) e, cbrunsli O x w f [a; b] = (e, f') ->
  (forall m, m <> b -> f' m = f m) /\
  (f' b = f b \/ exists stream k, compress_input O x f a = (Success, stream) /\ f' b = Some (firstn k stream)) /\
  (e = Success -> exists stream, compress_input O x f a = (Success, stream) /\ f' b = Some stream).
Proof.
  intros O x w f f' a b e E. destruct (tool_ok _ _ _ _ _ _ _ E) as [[N ->]|(inp & out & s & En & Ec & Ew)]; [split; [auto|]; split; [auto|congruence]|].
  cbn [file_names] in En. destruct (length a =? 0)%nat; [discriminate|]. injection En as <- <-. destruct (write_file_ok _ _ _ _ _ _ Ew) as ((O1 & O2) & S1 & _).
  split; [exact O1|]. split; [destruct O2 as [|[k O2]]; eauto|]. intros H. eauto.
Qed.
Print Assumptions C64_outcome.

Theorem C64_outcome_expand : forall (B : brotli) x w (f f' : files) (a b : name) e, dbrunsli B x w f [a; b] = (e, f') ->
  (forall m, m <> b -> f' m = f m) /\
  (f' b = f b \/ exists content k, expand_input B x f a = (Success, content) /\ f' b = Some (firstn k content)) /\
  (e = Success -> exists content, expand_input B x f a = (Success, content) /\ f' b = Some content).
Proof.
  intros B x w f f' a b e E. destruct (tool_ok _ _ _ _ _ _ _ E) as [[N ->]|(inp & out & s & En & Ec & Ew)]; [split; [auto|]; split; [auto|congruence]|].
  cbn [file_names] in En. destruct (length a =? 0)%nat; [discriminate|]. injection En as <- <-. destruct (write_file_ok _ _ _ _ _ _ Ew) as ((O1 & O2) & S1 & _).
  split; [exact O1|]. split; [destruct O2 as [|[k O2]]; eauto|]. intros H. eauto.
Qed.
Print Assumptions C64_outcome_expand.

(** cbrunsli fails or is killed at any moment and its output, however much of it is there, is then given to dbrunsli: dbrunsli restores the
    file or reports failure, but never writes something else and calls it a success. *)
Theorem C64_interrupted_never_wrong : forall (B : brotli) (O : oracle) x1 x2 w2 (f f1 f2 : files) (a b c : name) (file : list Z),
  f a = Some file -> bytes file -> Z.of_nat (length file) < 2 ^ 31 -> f b = None ->
  brotli_inverse B (or_compress O) -> (forall i n, 0 <= ch_rnd (or_round O i) n <= 1024) ->
  cbrunsli_killed O x1 f [a; b] f1 \/ (exists w1 e, cbrunsli O x1 w1 f [a; b] = (e, f1)) ->
  dbrunsli B x2 w2 f1 [b; c] = (Success, f2) -> f2 c = Some file /\ (a <> b -> f1 a = Some file).
Proof.
  intros B O x1 x2 w2 f f1 f2 a b c file Hf Y L Nb HB HR K E2.
  assert (Q : (f1 b = None \/ exists s k, compress_input O x1 f a = (Success, s) /\ f1 b = Some (firstn k s)) /\ (a <> b -> f1 a = Some file)).
  { destruct K as [[->|(inp & out & s & k & En & Ec & ->)]|(w1 & e & K)].
    - auto.
    - cbn [file_names] in En. destruct (length a =? 0)%nat; [discriminate|]. injection En as <- <-. split; [right; exists s, k; split; [exact Ec|apply put_same]|]. intros N. rewrite put_other by auto. exact Hf.
    - destruct (C64_outcome _ _ _ _ _ _ _ _ K) as (O1 & O2 & _). split; [rewrite Nb in O2; exact O2|]. intros N. rewrite O1 by auto. exact Hf. }
  destruct Q as [Q QA]. split; [|exact QA].
  destruct (tool_ok _ _ _ _ _ _ _ E2) as [[N _]|(inp & out & s' & En & Ec' & Ew')]; [congruence|]. cbn [file_names] in En. destruct (length b =? 0)%nat; [discriminate|]. injection En as <- <-.
  destruct (write_file_ok _ _ _ _ _ _ Ew') as (_ & S2 & _). rewrite (S2 eq_refl). f_equal. destruct Q as [Q|(s & k & Ec & Q)].
  - unfold expand_input, read_file in Ec'. rewrite Q in Ec'. discriminate.
  - destruct (compressed_restores B O x1 f a s file Hf Y L HB HR Ec) as (Ys & j & D & W). exact (expand_prefix B x2 f1 b s' s k j file Q Ys D W Ec').
Qed.
Print Assumptions C64_interrupted_never_wrong.

(** * Examples *)
Definition all_at_once : reading := mkReading true true true true (fun _ => 4096%nat) true.
Definition byte_by_byte : writing := mkWriting true (fun _ => 1%nat) true 0.
Definition disk : files := fun m => if list_eq_dec Z.eq_dec m [97] then Some ex_file else None.

Lemma all_at_once_well : reads_well all_at_once.
Proof. repeat split. intros i. cbn [rd_some all_at_once]. lia. Qed.
Lemma byte_by_byte_well : writes_well byte_by_byte.
Proof. repeat split. intros i. cbn [wr_some byte_by_byte]. lia. Qed.

(** The stream depends on the size of the buffer: here it is the one the tool asks for. *)
Definition tool_out : list Z :=
  Eval vm_compute in match brunsli_encode_jpeg (ex_oracle ex_file) (ex_jpeg ex_file) (max_encoded_size (ex_jpeg ex_file)) with Some o => o | None => [] end.
Lemma tool_out_decodes : match brunsli_decode_jpeg toy tool_out with (StOk, Some (OImage j)) => write_jpeg j = JOk ex_file | _ => False end.
Proof. vm_compute. reflexivity. Qed.

Example C64_case :
  disk [97] = Some ex_file /\ Z.of_nat (length ex_file) < 2 ^ 31 /\ read_jpeg RAll ex_file = JOk (ex_jpeg ex_file) /\ max_encoded_size (ex_jpeg ex_file) < 2 ^ 63 /\
  brunsli_encode_jpeg (ex_oracle ex_file) (ex_jpeg ex_file) (max_encoded_size (ex_jpeg ex_file)) = Some tool_out /\ Z.of_nat (length tool_out) < 2 ^ 31 /\
  fst (cbrunsli (ex_oracle ex_file) all_at_once byte_by_byte disk [[97]]) = Success.
Proof.
  split; [reflexivity|]. split; [apply Z.ltb_lt; vm_compute; reflexivity|]. split; [vm_compute; reflexivity|]. split; [apply Z.ltb_lt; vm_compute; reflexivity|].
  split; [vm_compute; reflexivity|]. split; [apply Z.ltb_lt; vm_compute; reflexivity|]. vm_compute. reflexivity.
Qed.

(** The disk is full after 50 bytes: failure, and dbrunsli does not accept the remains. *)
Example C64_case_full_disk :
  exists f1, cbrunsli (ex_oracle ex_file) all_at_once (mkWriting true (fun i => if (i =? 0)%nat then 50%nat else 0%nat) true 50) disk [[97]; [98]] = (Failure, f1) /\
    f1 [98] = Some (firstn 50 tool_out) /\ f1 [97] = Some ex_file /\ fst (dbrunsli toy all_at_once byte_by_byte f1 [[98]; [99]]) = Failure.
Proof. eexists. split; [vm_compute; reflexivity|]. vm_compute. auto. Qed.

(** * Files of 4 GB: the size is kept in an int, and what is behind the first (length mod 2^32) bytes is ignored without a word. *)
Definition big_file : list Z := ex_file ++ repeat 0 (Z.to_nat (2 ^ 32)).
Definition big_disk : files := fun m => if list_eq_dec Z.eq_dec m [97] then Some big_file else None.

Lemma big_length : Z.of_nat (length big_file) = Z.of_nat (length ex_file) + 2 ^ 32.
Proof. unfold big_file. rewrite app_length, repeat_length, Nat2Z.inj_add, Z2Nat.id by lia. reflexivity. Qed.

Lemma big_read x : reads_well x -> read_file x (Some big_file) = (Success, ex_file).
Proof.
  intros (H1 & H2 & H3 & H4 & H5 & H6). unfold read_file. rewrite H1, H2, H3, H4, H6. cbn [negb]. cbv zeta.
  assert (LE : 0 < Z.of_nat (length ex_file) < 2 ^ 31) by (split; apply Z.ltb_lt; vm_compute; reflexivity).
  assert (T : to_int (Z.of_nat (length big_file)) = Z.of_nat (length ex_file)).
  { rewrite big_length. unfold to_int. replace (Z.of_nat (length ex_file) + 2 ^ 32 + 2 ^ 31) with (Z.of_nat (length ex_file) + 2 ^ 31 + 1 * 2 ^ 32) by lia. rewrite Z.mod_add by lia. rewrite Z.mod_small by (change (2 ^ 32) with (2 * 2 ^ 31); lia). lia. }
  rewrite T. destruct (Z.eqb_spec (Z.of_nat (length ex_file)) 0); [lia|]. destruct (Z.ltb_spec (Z.of_nat (length ex_file)) 0); [lia|]. rewrite Nat2Z.id.
  assert (LN : (length ex_file <= length big_file)%nat) by (unfold big_file; rewrite app_length; lia).
  rewrite fread_total by (auto; lia). unfold big_file. rewrite firstn_app, Nat.sub_diag, firstn_all. cbn [firstn]. rewrite app_nil_r. reflexivity.
Qed.

Theorem C64_large_files_refuted : exists (B : brotli) (O : oracle) x w (f f1 f2 : files) (a b c : name) (file : list Z),
  f a = Some file /\ bytes file /\ brotli_inverse B (or_compress O) /\ (forall i n, 0 <= ch_rnd (or_round O i) n <= 1024) /\ reads_well x /\ writes_well w /\
  cbrunsli O x w f [a; b] = (Success, f1) /\ dbrunsli B x w f1 [b; c] = (Success, f2) /\ f2 c <> Some file.
Proof.
  exists toy, (ex_oracle ex_file), all_at_once, byte_by_byte, big_disk, (put big_disk [98] tool_out), (put (put big_disk [98] tool_out) [99] ex_file), [97], [98], [99], big_file.
  destruct C01_case as (Y & _ & R & HB & HR & _). destruct C64_case as (_ & _ & _ & M & E & Ls & _).
  assert (D : match brunsli_decode_jpeg toy tool_out with (StOk, Some (OImage j)) => write_jpeg j = JOk ex_file | _ => False end) by exact tool_out_decodes.
  split; [reflexivity|]. split. { unfold big_file. apply Forall_app. split; [exact Y|]. apply Forall_forall. intros v I. apply repeat_spec in I. subst v. clear. unfold is_byte. lia. }
  split; [exact HB|]. split; [exact HR|]. split; [apply all_at_once_well|]. split; [apply byte_by_byte_well|].
  split. { unfold cbrunsli, tool. change (file_names dot_brn [[97]; [98]]) with (Some ([97], [98])). cbv iota beta. unfold compress_input. change (big_disk [97]) with (Some big_file). rewrite (big_read _ all_at_once_well), R.
    rewrite (proj2 (Z.leb_gt _ _) M), E. apply write_file_total, byte_by_byte_well. }
  split. { unfold dbrunsli, tool. change (file_names dot_jpg [[98]; [99]]) with (Some ([98], [99])). cbv iota beta. unfold expand_input. rewrite put_same, (read_file_total _ tool_out all_at_once_well) by (exact Ls || discriminate).
    destruct (brunsli_decode_jpeg toy tool_out) as [[| |] [[j|d]|]]; try contradiction. rewrite D. apply write_file_total, byte_by_byte_well. }
  rewrite put_same. intros A. apply (f_equal (fun o => match o with Some l => Z.of_nat (length l) | None => 0 end)) in A. cbv beta iota in A. rewrite big_length in A. clear - A. lia.
Qed.
Print Assumptions C64_large_files_refuted.
