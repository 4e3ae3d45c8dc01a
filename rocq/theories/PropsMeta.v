(** C24, C25: APP and COM segments and trailing data. *)
From Verif Require Import Base BitProofs CodesModel CodesProofs Tables Stream MetaModel MetaProofs InternalsProofs.

(** The Brotli library undoes its own compression. *)
Definition brotli_inverse (B : brotli) (compress : list Z -> option (list Z)) : Prop :=
  forall m c, bytes m -> compress m = Some c -> bytes c /\ c <> [] /\ bro_run B (b_start B) c = BrEnd m (length c).

Lemma metadata_string_bytes app com tail m : Forall (segment_ok 224 239) app -> Forall (segment_ok 254 254) com -> bytes tail ->
  metadata_string app com tail = Some m -> Z.of_nat (length (concat (app ++ com ++ [tail]))) < 2 ^ 62 -> bytes m /\ Z.of_nat (length m) < 2 ^ 63.
Proof.
  intros Ha Hc Ht Em Hsz. assert (Q : bytes m /\ (length m <= length (concat app) + length (concat com) + 1 + length tail)%nat).
    { unfold metadata_string in Em. cbv zeta in Em. repeat match type of Em with (if ?c then _ else _) = _ => destruct c; [discriminate|] end.
      injection Em as <-.
      assert (T : bytes (concat (map fst (map transform_app app))) /\ (length (concat (map fst (map transform_app app))) <= length (concat app))%nat).
      { clear -Ha. induction Ha as [|g l Hg Hl IH]; [split; [constructor|cbn; lia]|]. cbn [map concat].
        destruct IH as [IH1 IH2]. rewrite !app_length. destruct Hg as [Gb (mk & h & lo & p & Eg & _ & _)].
        assert (X : bytes (fst (transform_app g)) /\ (length (fst (transform_app g)) <= length g)%nat).
        { unfold transform_app. destruct (transform_app0 g) as [o|] eqn:E0.
          { destruct (transform_app0_ok g o Gb E0) as (b & -> & Hb & _). subst g. cbn. split; [repeat constructor; unfold is_byte; lia|lia]. }
          assert (N : forall i, 0 <= nth i g 0 < 256).
          { intros i. destruct (Nat.lt_ge_cases i (length g)); [|rewrite nth_overflow by lia; lia]. unfold bytes in Gb. rewrite Forall_forall in Gb. apply Gb, nth_In. assumption. }
          assert (Y : forall t hl c o, 0 <= c < 256 -> transform_hole t hl c g = Some o -> bytes o /\ (length o <= length g)%nat).
          { intros t hl c o Hc E. unfold transform_hole in E. destruct (_ && _); [|discriminate]. injection E as <-.
            split; [constructor; [unfold is_byte; lia|constructor; [apply N|constructor]]|subst g; cbn; lia]. }
          destruct (transform_hole app_data_e2 84 128 g) eqn:E1; [eapply Y; [|exact E1]; lia|].
          destruct (transform_hole app_data_ec 15 129 g) eqn:E2; [eapply Y; [|exact E2]; lia|].
          destruct (transform_hole app_data_ee 10 130 g) eqn:E3; [eapply Y; [|exact E3]; lia|]. cbn. split; [exact Gb|lia]. }
        split; [apply bytes_app; split; [apply X|exact IH1]|lia]. }
      assert (C : bytes (concat com)).
      { clear -Hc. induction Hc as [|g l Hg Hl IH]; [constructor|]. cbn [concat]. apply bytes_app. split; [apply Hg|exact IH]. }
      destruct T as [T1 T2]. split.
      - apply bytes_app. split; [exact T1|]. apply bytes_app. split; [exact C|]. destruct tail; [constructor|]. constructor; [unfold is_byte; lia|exact Ht].
      - rewrite !app_length. destruct tail; cbn [length]; lia. }
    destruct Q as [Q1 Q2]. split; [exact Q1|]. rewrite !concat_app, !app_length in Hsz. cbn [concat] in Hsz. rewrite app_nil_r in Hsz. lia.
Qed.

Lemma encode_metadata_bytes B compress app com tail out : brotli_inverse B compress -> Forall (segment_ok 224 239) app -> Forall (segment_ok 254 254) com -> bytes tail ->
  encode_metadata compress app com tail = Some out -> Z.of_nat (length (concat (app ++ com ++ [tail]))) < 2 ^ 62 -> bytes out.
Proof.
  intros HB Ha Hc Ht E Hsz. unfold encode_metadata in E. destruct (metadata_string app com tail) as [m|] eqn:Em; [|discriminate]. cbn [obind] in E.
  destruct (metadata_string_bytes app com tail m Ha Hc Ht Em Hsz) as [Hmb Hml].
  destruct m as [|x [|y m]]; [injection E as <-; constructor|injection E as <-; exact Hmb|].
    destruct (compress (x :: y :: m)) as [c|] eqn:Ec; [|discriminate]. cbn [obind] in E. apply some_inj in E. subst out. apply (HB _ _ Hmb) in Ec. apply bytes_app. split; [apply encode_base128_bytes; lia|apply Ec].
Qed.

(** Every APP and COM segment and the trailing bytes come back byte for byte and in
    order, whatever follows the section and in whatever pieces the stream arrives.
    [segment_ok lo hi]: marker byte in lo..hi, then a big-endian length that counts
    itself and the payload. *)
Theorem C24_metadata_round_trip :
  forall (B : brotli) (compress : list Z -> option (list Z)) (app com : list (list Z)) (tail out rest : list Z) (avails : list nat),
    brotli_inverse B compress ->
    Forall (segment_ok 224 239) app -> Forall (segment_ok 254 254) com -> bytes tail -> bytes rest ->
    encode_metadata compress app com tail = Some out -> Z.of_nat (length (concat (app ++ com ++ [tail]))) < 2 ^ 62 ->
    nondecreasing 0 avails -> Forall (fun a => (a <= length (out ++ rest))%nat) avails -> In (length (out ++ rest)) avails ->
    exists s, calls (mdcall B (out ++ rest) (length out)) MDInitial avails = RDone s (length out) /\
              m_app s = app /\ m_com s = com /\ m_tail s = tail.
Proof.
  intros B compress app com tail out rest avails HB Ha Hc Ht Hr E Hsz Hm Hle Hin.
  unfold encode_metadata in E. destruct (metadata_string app com tail) as [m|] eqn:Em; [|discriminate]. cbn [obind] in E.
  destruct (metadata_string_parse app com tail m Ha Hc Em) as (s & P & F & R).
  exists s. split; [|exact R].
  destruct (metadata_string_bytes app com tail m Ha Hc Ht Em Hsz) as [Hmb Hml].
  assert (Bo : bytes out).
  { apply (encode_metadata_bytes B compress app com tail out HB Ha Hc Ht); [|exact Hsz]. unfold encode_metadata. rewrite Em. exact E. }
  assert (Bd : bytes (out ++ rest)) by (apply bytes_app; split; assumption).
  assert (L : (length out <= length (out ++ rest))%nat) by (rewrite app_length; lia).
  apply (calls_complete _ _ _ (mdcall_stable B (out ++ rest) (length out) (length (out ++ rest)) Bd (conj L (le_n _)))) with (a := 0%nat); auto; [exact I|].
  destruct m as [|x [|y m]].
  - injection E as <-. cbn in P. injection P as <-. reflexivity.
  - injection E as <-. cbn [mdcall length Nat.eqb Datatypes.app]. rewrite process_metadata_fold by apply m_init_minv. cbn [nth]. rewrite P, F. reflexivity.
  - destruct (compress (x :: y :: m)) as [c|] eqn:Ec; [|discriminate]. cbn [obind] in E. apply some_inj in E. subst out. apply (HB _ _ Hmb) in Ec. destruct Ec as (Cb & Cn & Cr).
    set (mm := x :: y :: m) in *.
    assert (B1 : (1 <= length (encode_base128 (Z.of_nat (length mm))))%nat) by (apply encode_base128_nonempty).
    set (hd := encode_base128 (Z.of_nat (length mm))) in *.
    assert (C1 : (1 <= length c)%nat) by (destruct c; [congruence|cbn; lia]).
    cbn [mdcall]. destruct (Nat.eqb_spec (length (hd ++ c)) 0) as [X|_]; [rewrite app_length in X; lia|].
    destruct (Nat.eqb_spec (length (hd ++ c)) 1) as [X|_]; [rewrite app_length in X; lia|].
    unfold md_length.
    assert (S0 : slice ((hd ++ c) ++ rest) 0 (length ((hd ++ c) ++ rest)) = hd ++ c ++ rest).
    { unfold slice. rewrite Nat.sub_0_r. cbn [skipn]. rewrite firstn_all, app_assoc. reflexivity. }
    rewrite S0. unfold hd at 1. rewrite base128_roundtrip by lia. cbv zeta.
    replace (length ((hd ++ c) ++ rest) - length (c ++ rest))%nat with (length hd) by (rewrite !app_length; lia).
    destruct (Nat.ltb_spec (length (hd ++ c)) (length hd)) as [X|_]; [rewrite app_length in X; lia|].
    destruct (Nat.eqb_spec (length (hd ++ c)) (length hd)) as [X|_]; [rewrite app_length in X; lia|].
    unfold md_brotli. rewrite Nat.min_r by exact L.
    assert (S1 : slice ((hd ++ c) ++ rest) (length hd) (length (hd ++ c)) = c).
    { unfold slice. rewrite <- app_assoc, skipn_app_exact. replace (length (hd ++ c) - length hd)%nat with (length c) by (rewrite app_length; lia). apply firstn_app_exact. }
    rewrite S1, Cr. rewrite Z.add_0_l, Z.ltb_irrefl. rewrite process_metadata_fold by apply m_init_minv. rewrite P.
    rewrite app_length, Nat.eqb_refl, Z.eqb_refl, F. reflexivity.
Qed.
Print Assumptions C24_metadata_round_trip.

(** Cutting the decompressed metadata into pieces makes no difference. *)
Definition feed (pieces : list (list Z)) : pres :=
  fold_left (fun r d => match r with POk s => process_metadata s d | x => x end) pieces (POk m_init).

Theorem C25_metadata_piece_independent :
  forall (pieces : list (list Z)), feed pieces = process_metadata m_init (concat pieces) /\ feed pieces <> PStuck.
Proof.
  intros pieces. rewrite process_metadata_fold by apply m_init_minv.
  assert (G : forall l s, minv s -> fold_left (fun r d => match r with POk s => process_metadata s d | x => x end) l (POk s) = pfold s (concat l)).
  { assert (Q : forall l x, (forall s, x <> POk s) -> fold_left (fun r d => match r with POk s => process_metadata s d | x => x end) l x = x).
    { induction l as [|d l IH]; intros x Hx; [reflexivity|]. cbn [fold_left]. destruct x; [destruct (Hx s); reflexivity|apply IH; exact Hx|apply IH; exact Hx]. }
    induction l as [|d l IH]; intros s Hi; [reflexivity|]. cbn [fold_left concat]. rewrite process_metadata_fold by exact Hi. rewrite pfold_app.
    destruct (pfold s d) as [s'| |] eqn:E; [apply IH; exact (pfold_minv _ _ _ Hi E)|apply Q; discriminate|apply Q; discriminate]. }
  unfold feed. rewrite G by apply m_init_minv. split; [reflexivity|apply pfold_not_stuck].
Qed.
Print Assumptions C25_metadata_piece_independent.

(** For arbitrary section bytes the verdict does not depend on the pieces of the
    compressed stream either. *)
Theorem C25_section_piece_independent :
  forall (B : brotli) (D : list Z) (n : nat) (avails1 avails2 : list nat),
    bytes D -> (n <= length D)%nat ->
    nondecreasing 0 avails1 -> Forall (fun a => (a <= length D)%nat) avails1 -> In (length D) avails1 ->
    nondecreasing 0 avails2 -> Forall (fun a => (a <= length D)%nat) avails2 -> In (length D) avails2 ->
    forall s q, calls (mdcall B D n) MDInitial avails1 = RDone s q <-> calls (mdcall B D n) MDInitial avails2 = RDone s q.
Proof.
  intros B D n a1 a2 Hb Hn M1 L1 I1 M2 L2 I2 s q.
  pose proof (mdcall_stable B D n (length D) Hb (conj Hn (le_n _))) as S.
  rewrite (calls_complete _ _ _ S a1 MDInitial 0%nat I M1 L1 I1). rewrite (calls_complete _ _ _ S a2 MDInitial 0%nat I M2 L2 I2). reflexivity.
Qed.
Print Assumptions C25_section_piece_independent.

(** Whatever the decompressed bytes: at most 832 short segments, 1024 long APP
    and 1024 COM segments, and the memory they take is at most the input size plus
    832 times the longest template (3161 bytes). *)
Theorem C25_metadata_bounded :
  forall (pieces : list (list Z)) (s : mstate), feed pieces = POk s ->
    Z.of_nat (length (m_app s)) <= 832 + 1024 /\ Z.of_nat (length (m_com s)) <= 1024 /\
    total_len (m_app s) + total_len (m_com s) + Z.of_nat (length (m_tail s)) <= 832 * 3161 + Z.of_nat (length (concat pieces)).
Proof.
  intros pieces s E. destruct (C25_metadata_piece_independent pieces) as [X _]. rewrite X in E.
  rewrite process_metadata_fold in E by apply m_init_minv.
  pose proof (bounded_fold _ _ _ _ bounded_init m_init_minv E) as (H1 & H2 & H3 & H4 & _ & _ & _ & _ & _ & _ & H10).
  unfold kShortMarkerLimit, kMultibyteMarkerLimit in *. split; [|split; lia].
  destruct (m_stage s); try (specialize (H3 ltac:(discriminate)); lia). specialize (H2 eq_refl). lia.
Qed.
Print Assumptions C25_metadata_bounded.

(** Non-vacuity: one segment of each short kind, two stored in full, a comment and
    trailing bytes; the stand-in for Brotli ends each chunk with a zero flag byte. *)
Definition toy : brotli :=
  mkBro bool false (fun st x => if st then Some ([x], Some false) else if x =? 1 then Some ([], Some true) else if x =? 0 then Some ([], None) else None).
Definition toy_compress (m : list Z) : option (list Z) := Some (flat_map (fun x => [1; x]) m ++ [0]).

Lemma toy_inverse_on m : bro_run toy false (flat_map (fun x => [1; x]) m ++ [0]) = BrEnd m (length (flat_map (fun x => [1; x]) m ++ [0])).
Proof. induction m as [|x m IH]; [reflexivity|]. cbn [flat_map Datatypes.app]. change ((1 :: x :: flat_map (fun x => [1; x]) m) ++ [0]) with (1 :: x :: (flat_map (fun x => [1; x]) m ++ [0])).
  set (L := flat_map (fun x => [1; x]) m ++ [0]) in *. 
  change (bro_run toy false (1 :: x :: L)) with
    (match (match bro_run toy false L with
            | BrError => BrError | BrEnd o u => BrEnd ([x] ++ o) (S u) | BrMore o st => BrMore ([x] ++ o) st end) with
     | BrError => BrError | BrEnd o u => BrEnd ([] ++ o) (S u) | BrMore o st => BrMore ([] ++ o) st end).
  rewrite IH. reflexivity. Qed.

Example toy_is_inverse : brotli_inverse toy toy_compress.
Proof.
  intros m c Hm E. apply some_inj in E. subst c. split; [|split].
  - apply bytes_app. split; [|constructor; [unfold is_byte; lia|constructor]]. induction Hm as [|x m Hx Hm IH]; [constructor|].
    cbn [flat_map Datatypes.app]. constructor; [unfold is_byte; lia|]. constructor; assumption.
  - destruct (flat_map (fun x => [1; x]) m); discriminate.
  - apply toy_inverse_on.
Qed.

Definition ex_app : list (list Z) :=
  [generate_app0 11; [225; 0; 5; 7; 8; 9]; upd app_data_ee 10 77; upd app_data_ec 15 3; [224; 0; 2]].
Definition ex_com : list (list Z) := [[254; 0; 4; 65; 66]].
Definition ex_tail : list Z := [0; 255; 217; 3].

Example C24_case :
  Forall (segment_ok 224 239) ex_app /\ Forall (segment_ok 254 254) ex_com /\
  match encode_metadata toy_compress ex_app ex_com ex_tail with
  | Some out => (length out < 80)%nat /\
      match calls (mdcall toy (out ++ [1; 2]) (length out)) MDInitial [1; 7; 12; length out + 2]%nat with
      | RDone s q => m_app s = ex_app /\ m_com s = ex_com /\ m_tail s = ex_tail /\ q = length out
      | _ => False
      end
  | None => False
  end.
Proof.
  split; [|split; [|vm_compute; repeat split; lia]].
  - assert (P : forall s p m h l, s = m :: h :: l :: p -> 224 <= m <= 239 -> h * 256 + l = Z.of_nat (length p) + 2 -> forallb (fun x => (0 <=? x) && (x <? 256)) s = true -> segment_ok 224 239 s).
    { intros s p m h l E A B C. split; [|exists m, h, l, p; auto]. apply Forall_forall. intros x Hx. rewrite forallb_forall in C. specialize (C x Hx). unfold is_byte. lia. }
    unfold ex_app. do 5 (apply Forall_cons; [eapply P; [vm_compute; reflexivity|lia|vm_compute; reflexivity|vm_compute; reflexivity]|]). apply Forall_nil.
  - constructor; [|constructor]. split; [repeat (apply Forall_cons; [unfold is_byte; lia|]); apply Forall_nil|]. exists 254, 0, 4, [65; 66]. cbn. repeat split; lia.
Qed.
