(** The sections of internals and of metadata: no verdict depends on the pieces. *)
From Verif Require Import Base CodesModel CodesProofs BitModel BitProofs Stream BitSteady JpegModel InternalsModel InternalsProofs3 MetaModel MetaProofs.

(** * Internals *)
Lemma read_inter_past e : forall m, past e (read_inter m e).
Proof.
  induction m as [|x r IH]; cbn [read_inter]; [exact I|]. destruct (x =? 255); [|exact IH].
  cbn [past]. intros v Hv q Hq. destruct (Z.ltb_spec (Z.of_nat (e - q)) v); [exact I|]. cbn [past]. split; [lia|].
  intros l. apply past_bind; [intros; exact I|exact IH].
Qed.
Lemma read_inter_okb e : forall m, okb e (read_inter m e).
Proof.
  induction m as [|x r IH]; cbn [read_inter]; [exact I|]. destruct (x =? 255); [|exact IH].
  cbn [okb past]. intros v Hv. split.
  - intros q. destruct (_ <? _); [exact I|]. cbn [okb]. intros l. apply okb_bind; [intros; exact I|intros; exact I|exact IH].
  - intros q Hq. destruct (Z.ltb_spec (Z.of_nat (e - q)) v); [exact I|]. cbn [past]. split; [lia|].
    intros l. apply past_bind; [intros; exact I|apply read_inter_past].
Qed.

Definition jokb (n : nat) (s : jstate) : Prop := match s with JBytes _ p _ => okb n p | _ => True end.

Lemma jbytes_steady D n x p pos a b : bytes D -> (pos <= a <= b)%nat -> (b <= length D)%nat -> okb n p ->
  match jbytes D n x p pos a with
  | RDone y q => jbytes D n x p pos b = RDone y q
  | RFail => jbytes D n x p pos b = RFail
  | RMore s => jinv D n s a /\ jokb n s /\ verd (jcall D n s b) = verd (jbytes D n x p pos b)
  end.
Proof.
  intros Hb Hp Hl Ho. unfold jbytes.
  pose proof (brun_boundary D n a b Hb ltac:(lia) Hl p pos ltac:(lia) Ho) as S.
  pose proof (brun_pos D (Some n) a Hb ltac:(lia) p pos ltac:(lia)) as P.
  destruct (brun D (Some n) p pos a) as [ds q| |[p' pos']].
  - rewrite S. destruct (q =? n)%nat; reflexivity.
  - destruct (brun D (Some n) p pos b) as [ds q'| |[? ?]]; [|reflexivity|contradiction].
    destruct (Nat.eqb_spec q' n); [lia|reflexivity].
  - destruct S as [S1 S2]. split; [cbn; cbn in P; lia|]. split; [exact S1|]. cbn [jcall]. unfold jbytes. rewrite S2. reflexivity.
Qed.

Lemma jcall_steady D n : bytes D -> (n <= length D)%nat -> steady (jcall D n) (fun s a => jinv D n s a /\ jokb n s) (length D).
Proof.
  intros Hb Hn s a [Hi Ho] b N Hab HN. destruct s as [p br pos|x p pos]; cbn [jinv jokb jcall] in *.
  - assert (Ln : length (firstn n D) = n) by (rewrite firstn_length; lia).
    pose proof (section_steady false (firstn n D) p br pos (Nat.min a n) (Nat.min b n) (Nat.min N n) (firstn_bytes n D Hb) Hi ltac:(lia) ltac:(lia)) as S.
    destruct (section_call false (firstn n D) p br pos (Nat.min b n)) as [x c| |p' b' pos'] eqn:E.
    + rewrite S. assert (Hc : (c <= Nat.min b n)%nat).
      { eapply section_call_pos; [|exact E]. destruct Hi as (? & ? & _ & P & _). lia. }
      pose proof (jbytes_steady D n x (read_inter (in_markers x) n) c b N Hb ltac:(lia) HN (read_inter_okb _ _)) as S2.
      destruct (jbytes D n x _ c b); [exact S2|exact S2|]. destruct S2 as (S2 & S3 & S4). auto.
    + rewrite S. reflexivity.
    + destruct S as (S1 & S2 & S3). split; [split; [exact S1|exact I]|]. cbn [jcall].
      destruct (section_call false (firstn n D) p' b' pos' (Nat.min N n)) as [x c| |], (section_call false (firstn n D) p br pos (Nat.min N n)) as [y d| |]; cbn [sverd] in S3; try discriminate; try reflexivity.
      injection S3 as -> ->. reflexivity.
  - pose proof (jbytes_steady D n x p pos b N Hb ltac:(lia) HN Ho) as S. destruct (jbytes D n x p pos b); [exact S|exact S|]. tauto.
Qed.

(** * Metadata *)
Lemma md_brotli_steady B D n N st size out ms pos a b : bytes D -> (n <= length D)%nat -> (pos <= n)%nat -> (pos <= a <= b)%nat -> (b <= N <= length D)%nat -> minv ms ->
  match @md_brotli B D n st size out ms pos b with
  | RDone x q => @md_brotli B D n st size out ms pos N = RDone x q
  | RFail => @md_brotli B D n st size out ms pos N = RFail
  | RMore s' => mdinv n s' b /\ verd (mdcall B D n s' N) = verd (@md_brotli B D n st size out ms pos N)
  end.
Proof.
  intros Hb Hn Hp Hab HbN Hi.
  destruct (Nat.leb_spec n b) as [Hnb|Hnb].
  - assert (E : @md_brotli B D n st size out ms pos N = @md_brotli B D n st size out ms pos b).
    { unfold md_brotli. rewrite !Nat.min_r by lia.
      replace (n <=? N)%nat with true by (symmetry; apply Nat.leb_le; lia). replace (n <=? b)%nat with true by (symmetry; apply Nat.leb_le; lia). reflexivity. }
    rewrite E. destruct (@md_brotli B D n st size out ms pos b) as [x q| |s'] eqn:R; try reflexivity.
    exfalso. unfold md_brotli in R. replace (n <=? b)%nat with true in R by (symmetry; apply Nat.leb_le; lia).
    repeat match type of R with context [match ?c with _ => _ end] => destruct c; try discriminate end.
  - unfold md_brotli at 1 2 3 4. rewrite (Nat.min_l b n) by lia. set (M := Nat.min N n).
    rewrite (slice_app D pos b M) by lia. rewrite bro_run_app.
    destruct (Nat.leb_spec n b) as [X|_]; [lia|].
    destruct (bro_run B st (slice D pos b)) as [|o u|o st'] eqn:R.
    + reflexivity.
    + destruct (_ <? _); [reflexivity|]. destruct (process_metadata ms o) as [ms'| |]; try reflexivity.
      destruct (negb _); [reflexivity|]. destruct (negb _); [reflexivity|]. destruct (negb _); reflexivity.
    + rewrite !(process_metadata_fold ms) by assumption.
      assert (Sz : (length (slice D pos b) = b - pos)%nat) by (apply slice_length; lia).
      destruct (Z.ltb_spec size (out + Z.of_nat (length o))) as [L|L].
      { destruct (bro_run B st' (slice D b M)) as [|o' u|o' st'']; [reflexivity| |]; rewrite app_length;
          (destruct (Z.ltb_spec size (out + Z.of_nat (length o + length o'))); [reflexivity|lia]). }
      destruct (pfold ms o) as [ms'| |] eqn:P.
      * split; [cbn [mdinv]; split; [lia|split; [lia|exact (pfold_minv _ _ _ Hi P)]]|].
        cbn [mdcall]. unfold md_brotli. fold M. rewrite Nat.max_r by lia.
        destruct (bro_run B st' (slice D b M)) as [|o' u|o' st'']; [reflexivity| |].
        { rewrite (process_metadata_fold ms') by (exact (pfold_minv _ _ _ Hi P)). rewrite (process_metadata_fold ms) by exact Hi.
          rewrite pfold_app, P, app_length, Sz. rewrite <- Z.add_assoc, <- Nat2Z.inj_add.
          replace (b + u)%nat with (pos + (b - pos + u))%nat by lia. reflexivity. }
        { rewrite (process_metadata_fold ms') by (exact (pfold_minv _ _ _ Hi P)). rewrite (process_metadata_fold ms) by exact Hi.
          rewrite pfold_app, P, app_length. rewrite <- Z.add_assoc, <- Nat2Z.inj_add.
          destruct (_ <? _); [reflexivity|]. destruct (pfold ms' o') as [ms''| |]; try reflexivity. destruct (n <=? N)%nat; reflexivity. }
      * destruct (bro_run B st' (slice D b M)) as [|o' u|o' st'']; [reflexivity| |]; (destruct (_ <? _); try reflexivity);
          rewrite (process_metadata_fold ms) by exact Hi; rewrite pfold_app, P; reflexivity.
      * destruct (pfold_not_stuck _ _ P).
Qed.

Lemma md_length_steady B D n N b : bytes D -> (1 < n)%nat -> (n <= length D)%nat -> (b <= N <= length D)%nat ->
  match @md_length B D n b with
  | RDone x q => @md_length B D n N = RDone x q
  | RFail => @md_length B D n N = RFail
  | RMore s' => mdinv n s' b /\ verd (mdcall B D n s' N) = verd (@md_length B D n N)
  end.
Proof.
  intros Hb H1 Hn HbN. unfold md_length. rewrite (slice_app D 0 b N) by lia. rewrite decode_base128_more.
  destruct (decode_base128 (slice D 0 b)) as [v rest| |] eqn:E.
  - destruct (decode_slice_ok D 0 b v rest Hb ltac:(lia) E) as (_ & H & _).
    rewrite app_length, slice_length by lia. replace (N - (length rest + (N - b)))%nat with (b - length rest)%nat by lia. cbv zeta.
    destruct (Nat.ltb_spec n (b - length rest)); [reflexivity|]. destruct (n =? b - length rest)%nat; [reflexivity|].
    apply md_brotli_steady with (a := b); auto; try lia. apply m_init_minv.
  - split; [exact H1|]. cbn [mdcall]. unfold md_length. rewrite (slice_app D 0 b N) by lia. rewrite decode_base128_more, E. reflexivity.
  - reflexivity.
Qed.

Lemma mdcall_steady B D n : bytes D -> (n <= length D)%nat -> steady (mdcall B D n) (mdinv n) (length D).
Proof.
  intros Hb Hn s a Hi b N Hab HN. destruct s as [| |st size out ms pos]; cbn [mdcall mdinv] in *.
  - destruct (Nat.eqb_spec n 0); [reflexivity|]. destruct (Nat.eqb_spec n 1) as [H1|H1].
    + destruct (Nat.eqb_spec b 0) as [->|].
      * split; [exact I|]. cbn [mdcall]. destruct (Nat.eqb_spec n 0); [lia|]. destruct (Nat.eqb_spec n 1); [|lia]. reflexivity.
      * destruct (Nat.eqb_spec N 0); [lia|]. destruct (process_metadata _ _) as [ms| |]; try reflexivity. destruct (can_finish ms); reflexivity.
    + apply md_length_steady; auto; lia.
  - apply md_length_steady; auto; lia.
  - destruct Hi as (A1 & A2 & A3). apply md_brotli_steady with (a := a); auto; lia.
Qed.
