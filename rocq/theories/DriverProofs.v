(** The look-ahead buffer: no overflow, no byte lost; streaming equals one-shot. *)
From Verif Require Import Base CodesModel BitModel BitProofs Stream BitSteady InternalsProofs Machine ContainerModel DriverModel.

Record parser_laws (P : parser) : Prop := {
  pl_consumed : forall s w r c s', pa_run P s w = (r, c, s') -> (c <= length w)%nat;
  pl_ahead : forall s w c s', pa_run P s w = (StNeed, c, s') -> (length w < c + read_ahead)%nat }.

Lemma store_ok l : (length l <= 1200)%nat -> store l = Some l.
Proof. intros H. unfold store. destruct (Nat.leb_spec (length l) (2 * read_ahead)); [reflexivity|unfold read_ahead in *; lia]. Qed.

Lemma skipn_length' {A} n (l : list A) : length (skipn n l) = (length l - n)%nat.
Proof. apply skipn_length. Qed.

Lemma firstn_app_l {A} (a b : list A) n : (n <= length a)%nat -> firstn n (a ++ b) = firstn n a.
Proof. intros H. rewrite firstn_app. replace (n - length a)%nat with 0%nat by lia. rewrite firstn_O, app_nil_r. reflexivity. Qed.
Lemma skipn_app_l {A} (a b : list A) n : (n <= length a)%nat -> skipn n (a ++ b) = skipn n a ++ b.
Proof. intros H. rewrite skipn_app. replace (n - length a)%nat with 0%nat by lia. reflexivity. Qed.
Lemma firstn_app_r {A} (a b : list A) n : (length a <= n)%nat -> firstn n (a ++ b) = a ++ firstn (n - length a) b.
Proof. intros H. rewrite firstn_app, firstn_all2 by lia. reflexivity. Qed.
Lemma firstn_skipn_add {A} (l : list A) p c : firstn (p + c) l = firstn p l ++ firstn c (skipn p l).
Proof. apply firstn_add. Qed.

(** ** A parser that remembers what it has consumed *)
Definition logging (P : parser) : parser := {|
  pa_state := list Z * pa_state P;
  pa_run := fun s w => let '(r, c, s') := pa_run P (snd s) w in (r, c, (fst s ++ firstn c w, s'));
  pa_failed := fun s => pa_failed P (snd s) |}.

Lemma logging_laws P : parser_laws P -> parser_laws (logging P).
Proof.
  intros [L1 L2]. constructor.
  - intros [l s] w r c s'. cbn. destruct (pa_run P s w) as [[r0 c0] s0] eqn:E. intros H. injection H as -> -> <-. exact (L1 _ _ _ _ _ E).
  - intros [l s] w c s'. cbn. destruct (pa_run P s w) as [[r0 c0] s0] eqn:E. intros H. injection H as -> -> <-. exact (L2 _ _ _ _ E).
Qed.

Definition log {P} (d : dstate (logging P)) : list Z := fst (d_st d).

(** One call: the buffer never overflows and stays short, at most the given bytes are
    taken, all of them when more input is asked for, and what the parser has
    consumed followed by what is buffered is exactly what was taken, in order. *)
Lemma drive_external_ok P : parser_laws P -> forall s ext p, (p <= length ext)%nat ->
  exists r c d', drive_external (logging P) s ext p = Some (r, c, d') /\ (length (d_buf d') < read_ahead)%nat /\
    (p <= c <= length ext)%nat /\ (r = StNeed -> c = length ext) /\ (r <> StNeed -> d_buf d' = []) /\
    log d' ++ d_buf d' = fst s ++ firstn (c - p) (skipn p ext).
Proof.
  intros L s ext p Hp. pose proof (logging_laws P L) as [L1 L2]. unfold drive_external. specialize (L1 s (skipn p ext)). specialize (L2 s (skipn p ext)).
  assert (EL : forall r c s', pa_run (logging P) s (skipn p ext) = (r, c, s') -> fst s' = fst s ++ firstn c (skipn p ext)).
  { intros r c s'. cbn. destruct (pa_run P (snd s) (skipn p ext)) as [[r0 c0] s0]. intros H. injection H as _ <- <-. reflexivity. }
  destruct (pa_run (logging P) s (skipn p ext)) as [[r c] s'] eqn:E. specialize (L1 _ _ _ eq_refl). specialize (EL _ _ _ eq_refl).
  rewrite skipn_length' in L1, L2. destruct r.
  - eexists StOk, (p + c)%nat, _. split; [reflexivity|]. cbn [d_buf log d_st]. split; [cbn; unfold read_ahead; lia|]. split; [lia|].
    split; [discriminate|]. split; [reflexivity|]. unfold log. cbn [d_st]. rewrite app_nil_r, EL. do 2 f_equal. lia.
  - specialize (L2 _ _ eq_refl). rewrite store_ok by (rewrite skipn_length'; unfold read_ahead in L2; lia). cbn [obind].
    eexists StNeed, (length ext), _. split; [reflexivity|]. cbn [d_buf]. rewrite skipn_length'. split; [lia|]. split; [lia|].
    split; [reflexivity|]. split; [congruence|]. unfold log. cbn [d_st]. rewrite EL, <- app_assoc. f_equal.
    rewrite Nat.add_comm, <- skipn_add. rewrite firstn_skipn. symmetry. apply firstn_all2. rewrite skipn_length'. lia.
  - eexists StInvalid, (p + c)%nat, _. split; [reflexivity|]. cbn [d_buf log d_st]. split; [cbn; unfold read_ahead; lia|]. split; [lia|].
    split; [discriminate|]. split; [reflexivity|]. unfold log. cbn [d_st]. rewrite app_nil_r, EL. do 2 f_equal. lia.
Qed.

Lemma drive_ok P : parser_laws P -> forall (d : dstate (logging P)) ext, (length (d_buf d) < read_ahead)%nat ->
  exists r c d', drive (logging P) d ext = Some (r, c, d') /\ (length (d_buf d') < read_ahead)%nat /\
    (c <= length ext)%nat /\ (r = StNeed -> c = length ext) /\
    log d' ++ d_buf d' = log d ++ d_buf d ++ firstn c ext.
Proof.
  intros L d ext Hd. pose proof (logging_laws P L) as [L1 L2]. unfold drive. destruct d as [buf s]. cbn [d_buf d_st log] in *.
  destruct (pa_failed (logging P) s).
  { eexists StInvalid, 0%nat, _. split; [reflexivity|]. cbn [d_buf log d_st firstn]. split; [exact Hd|]. split; [lia|]. split; [discriminate|].
    unfold log. cbn [d_st]. rewrite app_nil_r. reflexivity. }
  destruct buf as [|b0 bt] eqn:Eb.
  { destruct (drive_external_ok P L s ext 0 ltac:(lia)) as (r & c & d' & E & E1 & E2 & E3 & E4 & E5). exists r, c, d'. split; [exact E|].
    split; [exact E1|]. split; [lia|]. split; [exact E3|]. unfold log at 2. cbn [d_st]. rewrite app_nil_l, E5. rewrite Nat.sub_0_r. reflexivity. }
  rewrite <- Eb in *. clear Eb b0 bt. set (borrowed := firstn read_ahead ext).
  assert (Lb : length borrowed = Nat.min read_ahead (length ext)) by (unfold borrowed; apply firstn_length).
  rewrite store_ok by (rewrite app_length; unfold read_ahead in *; lia). cbn [obind].
  specialize (L1 s (buf ++ borrowed)). specialize (L2 s (buf ++ borrowed)).
  assert (EL : forall r c s', pa_run (logging P) s (buf ++ borrowed) = (r, c, s') -> fst s' = fst s ++ firstn c (buf ++ borrowed)).
  { intros r c s'. cbn [logging pa_run]. destruct (pa_run P (snd s) (buf ++ borrowed)) as [[r0 c0] s0]. intros H. injection H as _ <- <-. reflexivity. }
  destruct (pa_run (logging P) s (buf ++ borrowed)) as [[r c] s'] eqn:E. specialize (L1 _ _ _ eq_refl). specialize (EL _ _ _ eq_refl).
  rewrite app_length in L1, L2.
  assert (FB : (length buf <= c)%nat -> firstn c (buf ++ borrowed) = buf ++ firstn (c - length buf) ext).
  { intros Hc. rewrite firstn_app_r by exact Hc. f_equal. unfold borrowed. rewrite firstn_firstn. f_equal. lia. }
  destruct (Nat.leb_spec (length buf) c) as [Hc|Hc].
  - specialize (FB Hc). destruct r.
    + eexists StOk, (c - length buf)%nat, _. split; [reflexivity|]. cbn [d_buf]. split; [cbn; unfold read_ahead; lia|]. split; [lia|]. split; [discriminate|].
      unfold log. cbn [d_st]. rewrite app_nil_r, EL, FB. reflexivity.
    + destruct (drive_external_ok P L s' ext (c - length buf) ltac:(lia)) as (r & c' & d' & F & F1 & F2 & F3 & F4 & F5).
      exists r, c', d'. split; [exact F|]. split; [exact F1|]. split; [lia|]. split; [exact F3|].
      rewrite F5, EL, FB. unfold log. cbn [d_st]. rewrite <- !app_assoc. do 2 f_equal.
      rewrite <- firstn_add. f_equal. lia.
    + eexists StInvalid, (c - length buf)%nat, _. split; [reflexivity|]. cbn [d_buf]. split; [cbn; unfold read_ahead; lia|]. split; [lia|]. split; [discriminate|].
      unfold log. cbn [d_st]. rewrite app_nil_r, EL, FB. reflexivity.
  - rewrite firstn_app_l in EL by lia. destruct r.
    + eexists StOk, 0%nat, _. split; [reflexivity|]. cbn [d_buf]. rewrite skipn_length'. split; [lia|]. split; [lia|]. split; [discriminate|].
      unfold log. cbn [d_st firstn]. rewrite EL, <- app_assoc, firstn_skipn, app_nil_r. reflexivity.
    + specialize (L2 _ _ eq_refl). eexists StNeed, (length borrowed), _. split; [reflexivity|]. cbn [d_buf]. rewrite skipn_length', app_length.
      split; [unfold read_ahead in *; lia|]. split; [lia|]. split.
      * intros _. unfold read_ahead in *. lia.
      * unfold log. cbn [d_st]. rewrite EL, <- app_assoc. f_equal. rewrite skipn_app_l by lia. rewrite app_assoc, firstn_skipn. f_equal.
        unfold borrowed. rewrite firstn_length. destruct (Nat.min_spec read_ahead (length ext)) as [[M ->]|[M ->]]; [reflexivity|].
        rewrite firstn_all. apply firstn_all2. exact M.
    + eexists StInvalid, 0%nat, _. split; [reflexivity|]. cbn [d_buf]. rewrite skipn_length'. split; [lia|]. split; [lia|]. split; [discriminate|].
      unfold log. cbn [d_st firstn]. rewrite EL, <- app_assoc, firstn_skipn, app_nil_r. reflexivity.
Qed.

(** ** Streaming and one-shot *)
Lemma slice_len D a b : (a <= b <= length D)%nat -> length (slice D a b) = (b - a)%nat.
Proof. intros H. apply slice_length. lia. Qed.
Lemma slice_cat D a b c : (a <= b)%nat -> (b <= c)%nat -> slice D a b ++ slice D b c = slice D a c.
Proof.
  intros H1 H2. unfold slice. replace (c - a)%nat with ((b - a) + (c - b))%nat by lia. rewrite firstn_add. f_equal.
  rewrite skipn_add. do 2 f_equal. lia.
Qed.
Lemma slice_skip D a b k : (a + k <= b)%nat -> skipn k (slice D a b) = slice D (a + k) b.
Proof. intros H. unfold slice. rewrite skipn_firstn_comm, skipn_add. f_equal; [lia|f_equal; lia]. Qed.
Lemma slice_first D a b k : (a + k <= b)%nat -> firstn k (slice D a b) = slice D a (a + k).
Proof. intros H. unfold slice. rewrite firstn_firstn. f_equal. lia. Qed.
Lemma list_eqb_refl l : list_eqb l l = true.
Proof. apply list_eqb_eq. reflexivity. Qed.

Section StreamDriver.
  Context {X : Type} (D : list Z) (p0 : mprog X) (HD : bytes D).
  Notation N := (length D).
  Notation P := (stream_parser X D).

  (** The whole stream is rejected. *)
  Definition bad : Prop := match mrun D p0 0 N with RDone _ q => q <> N | RFail => True | RMore _ => False end.

  (** What a state means when [T] bytes have been taken. *)
  Definition means (s : pstate X) (T : nat) : Prop :=
    match s with
    | PRun p pos => (pos <= T)%nat /\ mgood read_ahead D p T /\ mat p pos /\ mnext p /\
        verd (mrun D p pos N) = verd (mrun D p0 0 N)
    | PDone x q => (q <= T)%nat /\ mrun D p0 0 N = RDone x q
    | PError => bad
    end.

  (** One call of the parser on the bytes from its position to [b]. *)
  Lemma parser_call s a b : means s a -> (a <= b <= N)%nat -> pa_failed P s = false ->
    exists r c s', pa_run P s (slice D (state_pos s) b) = (r, c, s') /\ means s' b /\
      match r with
      | StOk => (exists x, s' = PDone x b) /\ (state_pos s + c = b)%nat
      | StNeed => (exists p, s' = PRun p (state_pos s + c)) /\ (state_pos s + c <= b)%nat /\ (b < state_pos s + c + read_ahead)%nat /\
          (b = N -> exists t, mrun D p0 0 N = RMore t)
      | StInvalid => s' = PError /\ c = 0%nat
      end.
  Proof.
    intros Hm Hb Hf. unfold pa_run. cbn [stream_parser].
    assert (SL : length (slice D (state_pos s) b) = (b - state_pos s)%nat).
    { apply slice_len. destruct s as [p pos|x q|]; cbn [means] in Hm; cbn [state_pos]; try lia. }
    assert (SB : (state_pos s <= b)%nat) by (destruct s as [p pos|x q|]; cbn [means] in Hm; cbn [state_pos]; try lia).
    rewrite SL. replace (state_pos s + (b - state_pos s))%nat with b by lia. rewrite list_eqb_refl.
    destruct s as [p pos|x q|]; [| |discriminate].
    - cbn [means state_pos] in *. destruct Hm as (H1 & H2 & H3 & H4 & H5). unfold do_process.
      pose proof (mrun_pos read_ahead D b HD ltac:(lia) ltac:(unfold read_ahead; lia) p pos a H2 H3 H4 ltac:(lia) ltac:(lia)) as MP.
      pose proof (mrun_steady read_ahead D b N HD ltac:(lia) ltac:(lia) ltac:(unfold read_ahead; lia) p pos a H2 ltac:(lia) ltac:(lia)) as MS.
      destruct (mrun D p pos b) as [x q| |[p' pos']] eqn:E.
      + rewrite MS in H5. cbn [verd] in H5. symmetry in H5. apply verd_done in H5. clear MS. rename H5 into MS. unfold finish. destruct (Nat.eqb_spec q b) as [->|Hq].
        * eexists StOk, _, _. split; [reflexivity|]. cbn [means state_pos]. split; [split; [lia|exact MS]|]. split; [eauto|lia].
        * eexists StInvalid, _, _. split; [reflexivity|]. cbn [means state_pos]. split; [|split; [reflexivity|lia]].
          unfold bad. rewrite MS. lia.
      + eexists StInvalid, _, _. split; [reflexivity|]. cbn [means state_pos]. split; [|split; [reflexivity|lia]].
        rewrite MS in H5. cbn [verd] in H5. symmetry in H5. apply verd_fail in H5. unfold bad. rewrite H5. exact I.
      + eexists StNeed, _, _. split; [reflexivity|]. cbn [means state_pos]. destruct MP as (P1 & P2 & P3 & P4 & P5). split.
        * split; [lia|]. split; [exact P3|]. split; [exact P4|]. split; [exact P5|]. rewrite MS. exact H5.
        * replace (pos + (pos' - pos))%nat with pos' by lia. split; [eauto|]. split; [lia|]. split; [lia|].
          intros ->. rewrite E in H5. destruct (mrun D p0 0 N) as [? ?| |t]; cbn [verd] in H5; try discriminate. exists t. reflexivity.
    - cbn [means state_pos] in *. destruct Hm as (H1 & H2). unfold do_process, finish. destruct (Nat.eqb_spec q b) as [->|Hq].
      + eexists StOk, _, _. split; [reflexivity|]. cbn [means state_pos]. split; [split; [lia|exact H2]|]. split; [eauto|lia].
      + eexists StInvalid, _, _. split; [reflexivity|]. cbn [means state_pos]. split; [|split; [reflexivity|lia]].
        unfold bad. rewrite H2. lia.
  Qed.

  Definition inv (d : dstate P) (T : nat) : Prop :=
    (T <= N)%nat /\ means (d_st d) T /\
    (pa_failed P (d_st d) = false -> d_buf d = slice D (state_pos (d_st d)) T /\ (T < state_pos (d_st d) + read_ahead)%nat).

  (** What a status means when [T] bytes have been taken. *)
  Definition says (r : status) (d : dstate P) (T : nat) : Prop :=
    match r with
    | StOk => exists x, d_st d = PDone x T
    | StNeed => (exists p pos, d_st d = PRun p pos) /\ (T = N -> exists t, mrun D p0 0 N = RMore t)
    | StInvalid => d_st d = PError
    end.

  Lemma external_ok s T m p : (T + m <= N)%nat -> (p <= m)%nat -> state_pos s = (T + p)%nat -> pa_failed P s = false ->
    forall a, (a <= T + m)%nat -> means s a ->
    exists r c d', drive_external P s (slice D T (T + m)) p = Some (r, c, d') /\ (c <= m)%nat /\
      (r = StNeed -> c = m) /\ (r <> StInvalid -> inv d' (T + c)) /\ (r = StInvalid -> inv d' T) /\ says r d' (T + c).
  Proof.
    intros Hm Hp Hs Hf a Ha Hma. unfold drive_external. rewrite slice_skip by lia. rewrite <- Hs.
    destruct (parser_call s a (T + m)%nat Hma ltac:(lia) Hf) as (r & c & s' & E & M & R). rewrite E. destruct r.
    - destruct R as ((x & ->) & R). eexists StOk, _, _. split; [reflexivity|]. split; [lia|]. split; [discriminate|].
      replace (T + (p + c))%nat with (T + m)%nat by lia. split; [|split; [discriminate|]].
      + intros _. split; [lia|]. split; [exact M|]. cbn [d_st d_buf state_pos]. intros _. split; [|unfold read_ahead; lia].
        unfold slice. rewrite Nat.sub_diag. reflexivity.
      + exists x. reflexivity.
    - destruct R as ((p' & ->) & R1 & R2 & R3). rewrite slice_len by lia. replace (T + m - T)%nat with m by lia.
      rewrite slice_skip by lia. rewrite store_ok by (rewrite slice_len by lia; unfold read_ahead in R2; lia). cbn [obind].
      eexists StNeed, _, _. split; [reflexivity|]. split; [lia|]. split; [reflexivity|]. split; [|split; [discriminate|]].
      + intros _. split; [lia|]. split; [exact M|]. cbn [d_st d_buf state_pos]. intros _. split; [f_equal; lia|lia].
      + split; [eexists _, _; reflexivity|]. exact R3.
    - destruct R as (-> & ->). eexists StInvalid, _, _. split; [reflexivity|]. split; [lia|]. split; [discriminate|]. split; [congruence|]. split.
      + intros _. split; [lia|]. split; [exact M|]. discriminate.
      + reflexivity.
  Qed.

  Lemma drive_stream d T m : inv d T -> (T + m <= N)%nat ->
    exists r c d', drive P d (slice D T (T + m)) = Some (r, c, d') /\ (c <= m)%nat /\
      (r = StNeed -> c = m) /\ (r <> StInvalid -> inv d' (T + c)) /\ (r = StInvalid -> inv d' T) /\ says r d' (T + c).
  Proof.
    intros (I1 & I2 & I3) Hm. unfold drive. destruct (pa_failed P (d_st d)) eqn:Hf.
    { eexists StInvalid, _, _. split; [reflexivity|]. split; [lia|]. split; [discriminate|]. split; [congruence|]. split.
      - intros _. split; [exact I1|]. split; [exact I2|]. congruence.
      - cbn [says]. destruct (d_st d); try discriminate. reflexivity. }
    destruct (I3 eq_refl) as [I4 I5]. destruct d as [buf s]. cbn [d_st d_buf] in *.
    assert (SB : (state_pos s <= T)%nat) by (destruct s as [p pos|x q|]; cbn [means] in I2; cbn [state_pos]; try lia).
    destruct buf as [|b0 bt] eqn:Eb.
    { assert (E : state_pos s = T). { apply f_equal with (f := @length Z) in I4. rewrite slice_len in I4 by lia. cbn in I4. lia. }
      apply (external_ok s T m 0 Hm ltac:(lia) ltac:(lia) Hf T ltac:(lia) I2). }
    rewrite <- Eb in *. assert (LB : length buf = (T - state_pos s)%nat) by (rewrite I4; apply slice_len; lia).
    assert (LB0 : (0 < length buf)%nat) by (rewrite Eb; cbn; lia). clear Eb b0 bt.
    set (k := Nat.min read_ahead m).
    assert (EB : firstn read_ahead (slice D T (T + m)) = slice D T (T + k)).
    { unfold slice. rewrite firstn_firstn. f_equal. unfold k. lia. }
    cbn [d_buf d_st]. rewrite EB.
    assert (EW : buf ++ slice D T (T + k) = slice D (state_pos s) (T + k)) by (rewrite I4; apply slice_cat; lia). rewrite EW.
    rewrite store_ok by (rewrite slice_len by lia; unfold read_ahead in *; lia). cbn [obind].
    destruct (parser_call s T (T + k)%nat I2 ltac:(lia) Hf) as (r & c & s' & E & M & R). rewrite E.
    destruct (Nat.leb_spec (length buf) c) as [Hc|Hc].
    - destruct r.
      + destruct R as ((x & ->) & R). eexists StOk, _, _. split; [reflexivity|]. split; [lia|]. split; [discriminate|].
        replace (T + (c - length buf))%nat with (T + k)%nat by lia. split; [|split; [discriminate|]].
        * intros _. split; [lia|]. split; [exact M|]. cbn [d_st d_buf state_pos]. intros _. split; [|unfold read_ahead; lia].
          unfold slice. rewrite Nat.sub_diag. reflexivity.
        * exists x. reflexivity.
      + destruct R as ((p' & ->) & R1 & R2 & R3).
        apply (external_ok _ T m (c - length buf)) with (a := (T + k)%nat); [lia|lia|cbn [state_pos]; lia|reflexivity|lia|exact M].
      + destruct R as (_ & R). lia.
    - destruct r.
      + destruct R as (_ & R). lia.
      + destruct R as ((p' & ->) & R1 & R2 & R3).
        assert (K : k = m) by (unfold k in *; unfold read_ahead in *; lia). rewrite K in *.
        eexists StNeed, _, _. split; [reflexivity|]. rewrite slice_len by lia. replace (T + m - T)%nat with m by lia.
        split; [lia|]. split; [reflexivity|]. split; [|split; [discriminate|]].
        * intros _. split; [lia|]. split; [exact M|]. cbn [d_st d_buf state_pos]. intros _. split; [apply slice_skip; lia|lia].
        * split; [eexists _, _; reflexivity|exact R3].
      + destruct R as (-> & ->). eexists StInvalid, _, _. split; [reflexivity|]. split; [lia|]. split; [discriminate|]. split; [congruence|]. split.
        * intros _. split; [lia|]. split; [exact M|]. discriminate.
        * reflexivity.
  Qed.

  Lemma chunk_ok d T m : inv d T -> (T + m <= N)%nat ->
    exists r d', drive_chunk P d (slice D T (T + m)) = Some (r, d') /\ inv d' (if match r with StInvalid => true | _ => false end then T else T + m) /\
      (r <> StInvalid -> says r d' (T + m)) /\ (r = StInvalid -> d_st d' = PError).
  Proof.
    intros I Hm. unfold drive_chunk. destruct (drive_stream d T m I Hm) as (r & c & d1 & E & C1 & C2 & C3 & C4 & C5). rewrite E. cbn [obind].
    destruct r.
    - rewrite slice_len by lia. replace (T + m - T)%nat with m by lia. destruct (Nat.ltb_spec c m) as [Hc|Hc].
      + rewrite slice_skip by lia. replace (T + m)%nat with (T + c + (m - c))%nat by lia.
        destruct C5 as (x & C5).
        destruct (drive_stream d1 (T + c) (m - c) (C3 ltac:(discriminate)) ltac:(lia)) as (r2 & c2 & d2 & E2 & F1 & F2 & F3 & F4 & F5). rewrite E2. cbn [obind].
        assert (R2 : r2 = StInvalid).
        { revert E2. unfold drive. rewrite C5. cbn [pa_failed stream_parser].
          destruct (C3 ltac:(discriminate)) as (_ & _ & B). rewrite C5 in B. destruct (B eq_refl) as [B1 _]. rewrite B1. cbn [state_pos]. unfold slice at 1. rewrite Nat.sub_diag. cbn [firstn].
          unfold drive_external. cbn [skipn stream_parser pa_run state_pos]. rewrite slice_len by lia.
          replace (T + c + (T + c + (m - c) - (T + c)))%nat with (T + c + (m - c))%nat by lia. rewrite list_eqb_refl.
          unfold do_process, finish. destruct (Nat.eqb_spec (T + c) (T + c + (m - c))); [lia|]. intros Q.
          apply some_inj in Q. apply (f_equal (fun t => fst (fst t))) in Q. exact (eq_sym Q). }
        subst r2. eexists StInvalid, d2. split; [reflexivity|]. cbv iota. split; [|split; [congruence|intros _; exact F5]].
        destruct (F4 eq_refl) as (G1 & G2 & G3). cbn [says] in F5. rewrite F5 in G2, G3. split; [lia|]. rewrite F5. split; [exact G2|]. discriminate.
      + assert (c = m) as -> by lia. eexists StOk, d1. split; [reflexivity|]. cbv iota. split; [apply C3; discriminate|]. split; [intros _; exact C5|discriminate].
    - rewrite (C2 eq_refl) in *. eexists StNeed, d1. split; [reflexivity|]. cbv iota. split; [apply C3; discriminate|]. split; [intros _; exact C5|discriminate].
    - eexists StInvalid, d1. split; [reflexivity|]. cbv iota. split; [apply C4; reflexivity|]. split; [congruence|intros _; exact C5].
  Qed.

  Lemma drive_failed (d : dstate P) ext : d_st d = PError -> drive P d ext = Some (StInvalid, 0%nat, d).
  Proof. intros E. unfold drive. rewrite E. reflexivity. Qed.

  Lemma chunks_failed : forall chunks (d : dstate P), d_st d = PError -> drive_chunks P d StInvalid chunks = Some (StInvalid, d).
  Proof.
    induction chunks as [|e r IH]; intros d H; cbn [drive_chunks]; [reflexivity|]. unfold drive_chunk. rewrite drive_failed by exact H.
    cbn [obind]. apply IH. exact H.
  Qed.

  Lemma chunks_ok : forall chunks d st T, inv d T -> skipn T D = concat chunks -> (chunks = [] -> T = N) -> (chunks = [] -> st <> StInvalid -> says st d T) -> (st = StInvalid -> d_st d = PError) ->
    exists st' d', drive_chunks P d st chunks = Some (st', d') /\ (st' <> StInvalid -> says st' d' N /\ inv d' N) /\ (st' = StInvalid -> bad).
  Proof.
    induction chunks as [|ext rest IH]; intros d st T I Hc Hn Hs Hi; cbn [drive_chunks].
    - exists st, d. specialize (Hn eq_refl). subst T. split; [reflexivity|]. split; [intros H; split; [apply Hs; auto|exact I]|].
      intros H. destruct I as (_ & I & _). rewrite (Hi H) in I. exact I.
    - cbn [concat] in Hc. assert (Len : (T + length ext + length (concat rest) = N)%nat).
      { apply f_equal with (f := @length Z) in Hc. rewrite skipn_length, app_length in Hc. destruct I as (I & _). lia. }
      assert (E : ext = slice D T (T + length ext)).
      { unfold slice. rewrite Hc. replace (T + length ext - T)%nat with (length ext) by lia. rewrite firstn_app_exact. reflexivity. }
      rewrite E. destruct (chunk_ok d T (length ext) I ltac:(lia)) as (r & d1 & E1 & I1 & S1 & S2). rewrite E1. cbn [obind fst snd].
      destruct r.
      + destruct rest as [|e2 rest2].
        * cbn [concat length] in Len. cbn [drive_chunks]. eexists StOk, d1. split; [reflexivity|]. split; [|discriminate]. intros _.
          replace N with (T + length ext)%nat by lia. split; [apply S1; discriminate|exact I1].
        * apply (IH d1 StOk (T + length ext)%nat); [exact I1| |discriminate|discriminate|discriminate].
          rewrite Nat.add_comm, <- skipn_add, Hc, skipn_app_exact. reflexivity.
      + destruct rest as [|e2 rest2].
        * cbn [concat length] in Len. cbn [drive_chunks]. eexists StNeed, d1. split; [reflexivity|]. split; [|discriminate]. intros _.
          replace N with (T + length ext)%nat by lia. split; [apply S1; discriminate|exact I1].
        * apply (IH d1 StNeed (T + length ext)%nat); [exact I1| |discriminate|discriminate|discriminate].
          rewrite Nat.add_comm, <- skipn_add, Hc, skipn_app_exact. reflexivity.
      + rewrite chunks_failed by (apply S2; reflexivity). eexists StInvalid, d1. split; [reflexivity|]. split; [congruence|]. intros _.
        destruct I1 as (_ & I1 & _). rewrite (S2 eq_refl) in I1. exact I1.
  Qed.

  Definition stream_start : dstate P := @mkD P [] (PRun p0 0).
  Hypothesis G0 : mgood read_ahead D p0 0.
  Hypothesis O0 : moutside p0.

  Lemma stream_start_inv : inv stream_start 0.
  Proof.
    split; [lia|]. split; [|intros _; split; [reflexivity|cbn; unfold read_ahead; lia]]. cbn [means stream_start d_st].
    split; [lia|]. split; [exact G0|]. split; [apply moutside_mat; exact O0|]. split; [apply moutside_next; exact O0|]. reflexivity.
  Qed.

  Lemma streaming_is_one_shot chunks : chunks <> [] -> concat chunks = D ->
    exists st d, drive_chunks P stream_start StNeed chunks = Some (st, d) /\ st = fst (decode_once p0 D) /\
      forall x, (st = StOk /\ d_st d = PDone x N) <-> decode_once p0 D = (StOk, Some x).
  Proof.
    intros Hne Hc. destruct (chunks_ok chunks stream_start StNeed 0 stream_start_inv (eq_sym Hc) ltac:(congruence) ltac:(congruence) ltac:(discriminate)) as (st & d & E & H1 & H2).
    exists st, d. split; [exact E|]. unfold bad in H2. unfold decode_once, do_process. destruct st.
    - destruct (H1 ltac:(discriminate)) as [(y & S1) (_ & S2 & _)]. rewrite S1 in S2 |- *. cbn [means] in S2. destruct S2 as [_ S2]. rewrite S2.
      unfold finish. rewrite Nat.eqb_refl. split; [reflexivity|]. intros x. split; [intros [_ Q]; congruence|intros Q; split; [reflexivity|congruence]].
    - destruct (H1 ltac:(discriminate)) as [(_ & S1) _]. destruct (S1 eq_refl) as ([p' pos'] & S2). rewrite S2. split; [reflexivity|].
      intros x. split; [intros [Q _]; discriminate|discriminate].
    - specialize (H2 eq_refl). destruct (mrun D p0 0 N) as [y q| |[p' pos']]; [|split; [reflexivity|intros x; split; [intros [Q _]; discriminate|discriminate]]|contradiction].
      unfold finish. destruct (Nat.eqb_spec q N); [contradiction|]. split; [reflexivity|]. intros x. split; [intros [Q _]; discriminate|discriminate].
  Qed.
End StreamDriver.
