(** Decoded metadata consists of well-formed segments. *)
From Verif Require Import Base Tables CodesModel Stream MetaModel MetaProofs.

(** A marker byte, a big-endian length that counts itself, and that many bytes. *)
Definition seg_shape (lo hi : Z) (s : list Z) : Prop :=
  exists m h l payload, s = m :: h :: l :: payload /\ lo <= m <= hi /\ h * 256 + l = Z.of_nat (length payload) + 2.
Definition meta_shape (s : mstate) : Prop := Forall (seg_shape 224 239) (m_app s) /\ Forall (seg_shape 254 254) (m_com s).

(** A segment whose last [rem] bytes are still missing. *)
Definition seg_open (lo hi rem : Z) (s : list Z) : Prop :=
  exists m h l payload, s = m :: h :: l :: payload /\ lo <= m <= hi /\ h * 256 + l = Z.of_nat (length payload) + rem + 2.

Definition meta_run (s : mstate) : Prop :=
  match m_stage s with
  | SMarker | STail => meta_shape s
  | SCode => meta_shape s /\ 128 <= m_marker s <= 130
  | SLenHi | SLenLo => meta_shape s /\ (m_marker s = 254 \/ 224 <= m_marker s <= 239)
  | SMulti => 0 < m_rem s /\
      (m_marker s = 254 /\ Forall (seg_shape 224 239) (m_app s) /\ (exists l x, m_com s = l ++ [x] /\ Forall (seg_shape 254 254) l /\ seg_open 254 254 (m_rem s) x) \/
       m_marker s <> 254 /\ Forall (seg_shape 254 254) (m_com s) /\ (exists l x, m_app s = l ++ [x] /\ Forall (seg_shape 224 239) l /\ seg_open 224 239 (m_rem s) x))
  end.

Lemma generate_app0_shape b : seg_shape 224 239 (generate_app0 b).
Proof.
  unfold generate_app0, app_data_e0. cbn [upd]. do 4 eexists. split; [reflexivity|]. cbn [length]. lia.
Qed.
Lemma generate_app_shape m c : seg_shape 224 239 (generate_app m c).
Proof.
  assert (G : forall t h, (3 <= h)%nat -> seg_shape 224 239 t -> seg_shape 224 239 (upd t h c)).
  { intros t h Hh (a & b & d & p & -> & H1 & H2). destruct h as [|[|[|h]]]; try lia. cbn [upd]. exists a, b, d, (upd p h c). split; [reflexivity|]. split; [exact H1|]. rewrite upd_length. exact H2. }
  unfold generate_app. destruct (m =? 128); [|destruct (m =? 129)]; apply G; try lia.
  - exists 226. do 3 eexists. split; [reflexivity|]. split; [lia|]. vm_compute. reflexivity.
  - exists 236. do 3 eexists. split; [reflexivity|]. split; [lia|]. vm_compute. reflexivity.
  - exists 238. do 3 eexists. split; [reflexivity|]. split; [lia|]. vm_compute. reflexivity.
Qed.

Lemma seg_grow lo hi rem s b : seg_open lo hi rem s -> seg_open lo hi (rem - 1) (s ++ [b]).
Proof.
  intros (m & h & l & p & -> & H1 & H2). exists m, h, l, (p ++ [b]). split; [reflexivity|]. split; [exact H1|]. rewrite app_length. cbn [length]. lia.
Qed.
Lemma seg_close lo hi s : seg_open lo hi 0 s -> seg_shape lo hi s.
Proof. intros (m & h & l & p & -> & H1 & H2). exists m, h, l, p. split; [reflexivity|]. split; [exact H1|lia]. Qed.

Lemma meta_run_step s b s' r : meta_run s -> pmd_body s [b] = Some (s', r) -> meta_run s'.
Proof.
  intros H E. unfold pmd_body in E. unfold meta_run in H. destruct (m_stage s) eqn:ES.
  - destruct (b =? 217). { injection E as <- <-. exact H. }
    destruct (b <? 64).
    { destruct (_ <? _); [discriminate|]. injection E as <- <-. unfold meta_run, meta_shape in *. cbn [m_stage m_app m_com]. destruct H as [H1 H2]. split; [|exact H2]. apply Forall_app. split; [exact H1|]. constructor; [apply generate_app0_shape|constructor]. }
    destruct ((128 <=? b) && (b <=? 130)) eqn:EB.
    { destruct (_ <? _); [discriminate|]. injection E as <- <-. unfold meta_run. cbn [m_stage m_marker]. split; [exact H|lia]. }
    destruct (negb (b =? 254) && negb (Z.shiftr b 4 =? 14)) eqn:EM; [discriminate|]. injection E as <- <-. unfold meta_run. cbn [m_stage m_marker]. split; [exact H|].
    rewrite Z.shiftr_div_pow2 in EM by lia. change (2 ^ 4) with 16 in EM. destruct (Z.eqb_spec b 254); [auto|]. destruct (Z.eqb_spec (b / 16) 14); [right; dlia|discriminate].
  - injection E as <- <-. exact H.
  - injection E as <- <-. unfold meta_run, meta_shape in *. cbn [m_stage m_app m_com]. destruct H as [[H1 H2] _]. split; [|exact H2]. apply Forall_app. split; [exact H1|]. constructor; [apply generate_app_shape|constructor].
  - injection E as <- <-. exact H.
  - cbv zeta in E. rewrite Z.shiftl_mul_pow2 in E by lia. change (2 ^ 8) with 256 in E. destruct (Z.ltb_spec (m_hi s * 256 + b) 2); [discriminate|].
    destruct H as [[H1 H2] HM].
    assert (O : forall lo hi, lo <= m_marker s <= hi -> seg_open lo hi (m_hi s * 256 + b - 2) [m_marker s; m_hi s; b]) by (intros lo hi HB; exists (m_marker s), (m_hi s), b, []; split; [reflexivity|]; split; [exact HB|cbn [length]; lia]).
    destruct (Z.eqb_spec (m_marker s) 254) as [E4|N4].
    + destruct (_ <=? _); [discriminate|]. injection E as <- <-. unfold meta_run, meta_shape. cbn [m_stage m_app m_com m_rem m_marker].
      destruct (Z.ltb_spec 0 (m_hi s * 256 + b - 2)) as [R|R].
      * split; [exact R|]. left. split; [exact E4|]. split; [exact H1|]. do 2 eexists. split; [reflexivity|]. split; [exact H2|]. apply O. lia.
      * split; [exact H1|]. apply Forall_app. split; [exact H2|]. constructor; [|constructor]. apply seg_close. replace 0 with (m_hi s * 256 + b - 2) by lia. apply O. lia.
    + destruct (_ <=? _); [discriminate|]. injection E as <- <-. unfold meta_run, meta_shape. cbn [m_stage m_app m_com m_rem m_marker].
      destruct (Z.ltb_spec 0 (m_hi s * 256 + b - 2)) as [R|R].
      * split; [exact R|]. right. split; [exact N4|]. split; [exact H2|]. do 2 eexists. split; [reflexivity|]. split; [exact H1|]. apply O. lia.
      * split; [|exact H2]. apply Forall_app. split; [exact H1|]. constructor; [|constructor]. apply seg_close. replace 0 with (m_hi s * 256 + b - 2) by lia. apply O. lia.
  - destruct H as [HR H]. cbn [length] in E. change (Z.of_nat 1) with 1 in E. cbv zeta in E. rewrite Z.min_r in E by lia. change (Z.to_nat 1) with 1%nat in E. cbn [firstn skipn] in E.
    assert (K : forall lo hi x, seg_open lo hi (m_rem s) x -> (m_rem s - 1 = 0 -> seg_shape lo hi (x ++ [b])) /\ seg_open lo hi (m_rem s - 1) (x ++ [b])).
    { intros lo hi x O. apply (seg_grow _ _ _ _ b) in O. split; [|exact O]. intros Z0. rewrite Z0 in O. apply seg_close, O. }
    destruct (Z.eqb_spec (m_marker s) 254) as [E4|N4].
    + destruct H as [(_ & HA & l & x & EC & HL & HO)|(N & _)]; [|contradiction]. injection E as <- <-. rewrite EC, append_last_snoc. unfold meta_run, meta_shape. destruct (K _ _ _ HO) as [K1 K2]. cbn [m_stage m_app m_com m_rem m_marker].
      destruct (Z.eqb_spec (m_rem s - 1) 0) as [Z0|Z0].
      * split; [exact HA|]. apply Forall_app. split; [exact HL|]. constructor; [exact (K1 Z0)|constructor].
      * split; [lia|]. left. split; [exact E4|]. split; [exact HA|]. do 2 eexists. split; [reflexivity|]. split; [exact HL|exact K2].
    + destruct H as [(E4 & _)|(_ & HA & l & x & EC & HL & HO)]; [contradiction|]. injection E as <- <-. rewrite EC, append_last_snoc. unfold meta_run, meta_shape. destruct (K _ _ _ HO) as [K1 K2]. cbn [m_stage m_app m_com m_rem m_marker].
      destruct (Z.eqb_spec (m_rem s - 1) 0) as [Z0|Z0].
      * split; [|exact HA]. apply Forall_app. split; [exact HL|]. constructor; [exact (K1 Z0)|constructor].
      * split; [lia|]. right. split; [exact N4|]. split; [exact HA|]. do 2 eexists. split; [reflexivity|]. split; [exact HL|exact K2].
Qed.

Lemma meta_run_fold : forall data s s', meta_run s -> pfold s data = POk s' -> meta_run s'.
Proof.
  induction data as [|b data IH]; intros s s' H E; cbn [pfold] in E; [injection E as <-; exact H|].
  destruct (pmd_body s [b]) as [[s1 r]|] eqn:E1; [|discriminate]. eapply IH; [|exact E]. eapply meta_run_step; eauto.
Qed.

Lemma meta_run_init : meta_run m_init.
Proof. split; constructor. Qed.

Lemma meta_run_finish s : meta_run s -> can_finish s = true -> meta_shape s.
Proof. unfold meta_run, can_finish. destruct (m_stage s); try discriminate; auto. Qed.

Lemma metadata_shape ms o s : meta_run ms -> minv ms -> process_metadata ms o = POk s -> can_finish s = true -> meta_shape s.
Proof. intros H M E F. rewrite process_metadata_fold in E by exact M. apply meta_run_finish; [|exact F]. eapply meta_run_fold; eauto. Qed.

(** Whatever a complete call of the section decoder returns. *)
Lemma mdcall_shape B V n N x q : mdcall B V n MDInitial N = RDone x q -> meta_shape x.
Proof.
  cbn [mdcall]. destruct (n =? 0)%nat; [intros E; injection E as <- _; split; constructor|].
  destruct (n =? 1)%nat.
  - destruct (N =? 0)%nat; [discriminate|]. destruct (process_metadata m_init [nth 0 V 0]) as [ms| |] eqn:E; try discriminate. destruct (can_finish ms) eqn:F; [|discriminate].
    intros H. injection H as <- _. eapply metadata_shape; [apply meta_run_init|apply m_init_minv|exact E|exact F].
  - unfold md_length. destruct (decode_base128 _) as [v rest| |]; try discriminate. cbv zeta. destruct (_ <? _)%nat; [discriminate|]. destruct (n =? _)%nat; [discriminate|].
    unfold md_brotli. destruct (bro_run _ _ _) as [|o u|o st]; [discriminate| |].
    + destruct (_ <? _); [discriminate|]. destruct (process_metadata m_init o) as [ms| |] eqn:E; try discriminate. destruct (negb _); [discriminate|]. destruct (negb _); [discriminate|].
      destruct (can_finish ms) eqn:F; [|discriminate]. cbn [negb]. intros H. injection H as <- _. eapply metadata_shape; [apply meta_run_init|apply m_init_minv|exact E|exact F].
    + destruct (_ <? _); [discriminate|]. destruct (process_metadata m_init o) as [ms| |]; try discriminate. destruct (_ <=? _)%nat; discriminate.
Qed.
