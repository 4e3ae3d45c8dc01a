(** JPEGInternals: bit budget, pieces of input, the bytes between markers, and what
    every accepted section satisfies. *)
From Verif Require Import Base BitModel BitProofs CodesModel CodesProofs ProgLogic LehmerModel LehmerProofs Tables JpegModel QuantModel QuantProofs Stream InternalsModel InternalsProofs InternalsProofs2.

(** ** Every read is covered by a preceding availability check *)
Ltac bk := unfold Read; cbn [bok]; split; [lia|]; split; [lia|]; let v := fresh "v" in let Hv := fresh "Hv" in intros v Hv; split; [lia|]; cbv beta.

Lemma read_markers_bok fuel : forall b, bok b (read_markers fuel).
Proof.
  induction fuel as [|f IH]; intros b; cbn [read_markers]; [exact I|]. bk. cbv zeta.
  destruct (_ =? 217); [exact I|]. apply bok_bind; [apply IH|intros; exact I].
Qed.

Lemma read_counts_bok mc : mc <= 256 -> forall n i total space b, 0 <= total -> bok b (read_counts n i total space mc).
Proof.
  intros Hmc. induction n as [|n IH]; intros i total space b Ht; cbn [read_counts]; [exact I|]. cbv zeta.
  set (limit := Z.min (mc - total) (Z.shiftr space (16 - Z.of_nat i))).
  assert (Hl : limit <= 256) by (unfold limit; lia).
  destruct (Z.ltb_spec 0 limit).
  - pose proof (Z.log2_le_mono limit 256 Hl) as L. change (Z.log2 256) with 8 in L. bk.
    destruct (_ <? _); [exact I|]. apply bok_bind; [apply IH; lia|intros; exact I].
  - apply bok_bind; [apply IH; lia|intros; exact I].
Qed.

Lemma read_perm_bok : forall n values b, bok b (read_perm n values).
Proof.
  induction n as [|n IH]; intros values b; cbn [read_perm]; [exact I|].
  apply bok_bind; [apply bok_decode_limited_varint; lia|]. intros c. destruct (pc_remove c values) as [[v vs]|]; [|exact I].
  apply bok_bind; [apply IH|intros; exact I].
Qed.

Lemma read_complex_huff_bok dc b : bok b (read_complex_huff dc).
Proof.
  unfold read_complex_huff. bk. cbv zeta. apply bok_bind; [apply read_counts_bok; [destruct dc; cbn; lia|lia]|].
  intros [cs tot]. apply bok_bind; [apply read_perm_bok|intros; exact I].
Qed.

Lemma read_huff_bok known b : bok b (read_huff known).
Proof.
  unfold read_huff. destruct known; cbv zeta.
  - do 3 bk. destruct (negb (_ =? 0)); [bk; exact I|]. apply bok_bind; [apply read_complex_huff_bok|intros; exact I].
  - do 4 bk. destruct (negb (v2 =? 0)); [bk; exact I|]. apply bok_bind; [apply read_complex_huff_bok|intros; exact I].
Qed.

Lemma read_huffs_bok : forall room b, bok b (read_huffs room).
Proof.
  induction room as [|m IH]; intros b; cbn [read_huffs]; [exact I|]. bk. cbv zeta.
  apply bok_bind; [apply read_huff_bok|]. intros h. destruct (negb (v =? 0)); [exact I|].
  destruct m; [exact I|]. apply bok_bind; [apply IH|intros; exact I].
Qed.

Lemma read_scan_comps_bok : forall n b, bok b (read_scan_comps n).
Proof.
  induction n as [|n IH]; intros b; cbn [read_scan_comps]; [exact I|]. do 3 bk.
  apply bok_bind; [apply IH|intros; exact I].
Qed.

Lemma read_resets_bok : forall fuel last b, bok b (read_resets fuel last).
Proof.
  induction fuel as [|f IH]; intros last b; cbn [read_resets]; [exact I|]. bk. destruct (v =? 0); [exact I|].
  apply bok_bind; [apply bok_decode_varint|]. intros w. cbv zeta. destruct (2 ^ 30 <? _); [exact I|].
  apply bok_bind; [apply IH|intros; exact I].
Qed.

Lemma read_runs_bok : forall fuel last num b, bok b (read_runs fuel last num).
Proof.
  induction fuel as [|f IH]; intros last num b; cbn [read_runs]; [exact I|]. bk. destruct (v =? 0); [exact I|].
  apply bok_bind; [apply bok_decode_varint|]. intros w. cbv zeta. destruct (2 ^ 30 <? _); [exact I|].
  apply bok_bind; [apply IH|intros; exact I].
Qed.

Lemma read_scan_bok fuel b : bok b (read_scan fuel).
Proof.
  unfold read_scan. do 5 bk.
  apply bok_bind; [apply read_scan_comps_bok|intros]. apply bok_bind; [apply read_resets_bok|intros].
  apply bok_bind; [apply read_runs_bok|intros; exact I].
Qed.

Lemma read_scans_bok fuel : forall n b, bok b (read_scans n fuel).
Proof.
  induction n as [|n IH]; intros b; cbn [read_scans]; [exact I|]. apply bok_bind; [apply read_scan_bok|intros].
  apply bok_bind; [apply IH|intros; exact I].
Qed.

Lemma read_quant_heads_bok : forall n b, bok b (read_quant_heads n).
Proof.
  induction n as [|n IH]; intros b; cbn [read_quant_heads]; [exact I|]. bk. cbv zeta. destruct n as [|m].
  - bk. destruct (1 <? _); [exact I|]. apply bok_bind; [apply IH|intros; exact I].
  - do 2 bk. destruct (1 <? _); [exact I|]. apply bok_bind; [apply IH|intros; exact I].
Qed.

Lemma read_n_bok bits : (bits <= 24)%nat -> forall n b, bok b (read_n n bits).
Proof.
  intros Hb. induction n as [|n IH]; intros b; cbn [read_n]; [exact I|]. bk. apply bok_bind; [apply IH|intros; exact I].
Qed.

Lemma read_ids_bok n b : bok b (read_ids n).
Proof.
  unfold read_ids. bk. destruct (v =? 0); [destruct (n <? 3)%nat; exact I|].
  destruct (v =? 1); [destruct (n <? 1)%nat; exact I|]. destruct (v =? 2); [destruct (n <? 3)%nat; exact I|]. apply read_n_bok. lia.
Qed.

Lemma read_internals_bok fuel w h n : bok 0 (read_internals fuel w h n).
Proof.
  unfold read_internals. apply bok_bind; [apply read_markers_bok|intros m].
  apply bok_bind; [destruct (_ <? _)%nat; [bk; exact I|exact I]|intros r].
  apply bok_bind; [apply read_huffs_bok|intros hs]. destruct (negb _); [exact I|].
  apply bok_bind; [apply read_scans_bok|intros sc].
  apply bok_bind; [bk; apply read_quant_heads_bok|intros qs].
  apply bok_bind; [apply read_ids_bok|intros ids].
  apply bok_bind; [|intros; exact I]. unfold read_padding. apply bok_bind; [apply bok_decode_limited_varint; lia|intros k].
  destruct (_ <? _); [exact I|]. apply read_n_bok. lia.
Qed.

(** ** Enough loop budget *)
Lemma encode_resets_len : forall l last, (length l <= length (fields_bits (encode_resets l last)))%nat.
Proof.
  induction l as [|b r IH]; intros last; cbn [encode_resets length]; [lia|]. rewrite fields_bits_cons, fields_bits_app, !app_length, bits_of_len.
  specialize (IH b). lia.
Qed.

Lemma encode_run_len : forall n b last, (n <= length (fields_bits (encode_run n b last)))%nat.
Proof.
  induction n as [|n IH]; intros b last; cbn [encode_run]; [lia|]. rewrite fields_bits_cons, fields_bits_app, !app_length, bits_of_len.
  specialize (IH b b). lia.
Qed.

Lemma encode_runs_len : forall l last, (runs_steps l <= length (fields_bits (encode_runs l last)))%nat.
Proof.
  induction l as [|[b n] r IH]; intros last; cbn [encode_runs runs_steps]; [lia|]. rewrite fields_bits_app, app_length.
  pose proof (encode_run_len (Z.to_nat n) b last). specialize (IH (if 0 <? n then b else last)). lia.
Qed.

Lemma encode_internals_len w h x fs : encode_internals w h x = Some fs -> (steps x <= length (fields_bits fs))%nat.
Proof.
  intros E. unfold encode_internals in E. cbv zeta in E. destruct (negb _ || negb _); [discriminate|].
  destruct (encode_huffs (in_huff x)) as [hs|]; [|discriminate]. cbn [obind] in E.
  destruct (negb _); [discriminate|]. destruct (encode_quant_heads (in_quant x)) as [qs|]; [|discriminate]. cbn [obind] in E.
  destruct (_ <? _); [discriminate|]. apply some_inj in E. subst fs. unfold steps. rewrite !fields_bits_app, !app_length.
  assert (A : (length (in_markers x) <= length (fields_bits (map (fun y => (6%nat, (y - 192)%Z)) (in_markers x))))%nat).
  { induction (in_markers x) as [|m l IH]; cbn [map length]; [lia|]. rewrite fields_bits_cons, app_length, bits_of_len. lia. }
  assert (B : (list_sum (map scan_steps (in_scans x)) <= length (fields_bits (flat_map encode_scan (in_scans x))))%nat).
  { clear A. induction (in_scans x) as [|s l IH]; cbn [map flat_map]; [cbn; lia|]. rewrite fields_bits_app, app_length.
    change (list_sum (scan_steps s :: map scan_steps l)) with (scan_steps s + list_sum (map scan_steps l))%nat.
    assert (C : (scan_steps s <= length (fields_bits (encode_scan s)))%nat); [|lia].
    unfold scan_steps, encode_scan. rewrite !fields_bits_app, !app_length.
    pose proof (encode_resets_len (si_resets s) (-1)). pose proof (encode_runs_len (si_zero_runs s) 0). lia. }
  lia.
Qed.

Lemma pack_len_ge B : (length B <= 8 * length (pack B))%nat.
Proof.
  assert (E : length (bits_of_bytes (pack B)) = (8 * length (pack B))%nat) by apply bits_of_bytes_length.
  rewrite pack_bits, app_length in E. lia.
Qed.

(** ** Bytes between markers *)
Lemma brun_bbind_done {A B} D e avail (g : A -> bprog B) : forall (p : bprog A) pos x q,
  brun D e p pos avail = RDone x q -> brun D e (bbind p g) pos avail = brun D e (g x) q avail.
Proof.
  induction p as [a| |k IH|k IH|acc n k IH|k IH]; intros pos x q E; cbn [brun bbind] in *.
  - injection E as <- <-. reflexivity.
  - discriminate.
  - destruct (_ <? _)%nat; [|discriminate]. apply IH, E.
  - destruct (decode_base128 _); [apply IH, E|destruct e; [destruct (_ <=? _)%nat|]; discriminate|discriminate].
  - cbv zeta in *. destruct (_ <=? 0); [|discriminate]. apply IH, E.
  - apply IH, E.
Qed.

Lemma slice_skipn D p q : slice D p q = firstn (q - p) (skipn p D).
Proof. reflexivity. Qed.

Lemma read_inter_run D n : forall markers inter pos,
  Forall (fun s => Z.of_nat (length s) < 2 ^ 63) inter ->
  length inter = count_marker 255 markers ->
  (n <= length D)%nat -> (pos + length (encode_inter inter) = n)%nat ->
  (exists rest, skipn pos D = encode_inter inter ++ rest) ->
  brun D (Some n) (read_inter markers n) pos (length D) = RDone inter n.
Proof.
  induction markers as [|m r IH]; intros inter pos HB HL Hn Hpos [rest Hrest]; cbn [read_inter brun].
  - destruct inter; [|discriminate]. cbn in Hpos. f_equal. lia.
  - unfold count_marker in HL. cbn [filter] in HL. rewrite Z.eqb_sym in HL. destruct (Z.eqb_spec m 255) as [->|Hm].
    + destruct inter as [|s ss]; [discriminate|]. pose proof (Forall_inv HB) as Hs. pose proof (Forall_inv_tail HB) as HB'. cbv beta in Hs. injection HL as HL.
      cbn [encode_inter flat_map] in *. fold (encode_inter ss) in *. rewrite <- app_assoc in Hpos, Hrest.
      cbn [brun].
      assert (Es : slice D pos (length D) = encode_base128 (Z.of_nat (length s)) ++ s ++ encode_inter ss ++ rest).
      { unfold slice. rewrite <- skipn_length, firstn_all, Hrest, <- !app_assoc. reflexivity. }
      assert (Ls : (length D - pos)%nat = (length (encode_base128 (Z.of_nat (length s))) + length s + length (encode_inter ss) + length rest)%nat).
      { rewrite <- skipn_length, Hrest, !app_length. lia. }
      rewrite !app_length in Hpos.
      rewrite Es, base128_roundtrip by lia. cbn [brun].
      set (c := length (encode_base128 (Z.of_nat (length s)))) in *.
      replace (length D - length (s ++ encode_inter ss ++ rest))%nat with (pos + c)%nat by (rewrite !app_length; lia).
      destruct (Z.ltb_spec (Z.of_nat (n - (pos + c))) (Z.of_nat (length s))); [lia|]. cbn [brun]. cbv zeta.
      replace (Z.to_nat (Z.min (Z.of_nat (length s)) (Z.of_nat (length D - (pos + c))))) with (length s) by lia.
      rewrite Z.sub_diag. cbn [Z.leb Z.compare app].
      assert (Ed : slice D (pos + c) (pos + c + length s) = s).
      { unfold slice. replace (pos + c + length s - (pos + c))%nat with (length s) by lia.
        replace (pos + c)%nat with (c + pos)%nat by lia. rewrite <- skipn_add, Hrest, <- !app_assoc. unfold c. rewrite skipn_app_exact. apply firstn_app_exact. }
      rewrite Ed. erewrite brun_bbind_done; [|apply (IH ss)]; [reflexivity|exact HB'|exact HL|exact Hn|lia|].
      exists rest. replace (pos + c + length s)%nat with (length s + (c + pos))%nat by lia. rewrite <- !skipn_add, Hrest, <- !app_assoc.
      unfold c. rewrite !skipn_app_exact. reflexivity.
    + apply IH; auto. eexists; exact Hrest.
Qed.

(** ** Pieces of input *)
Definition jinv (D : list Z) (n : nat) (s : jstate) (a : nat) : Prop :=
  match s with
  | JBits p b pos => binv (firstn n D) p b pos (Nat.min a n)
  | JBytes x p pos => (pos <= a)%nat
  end.

Lemma firstn_bytes n D : bytes D -> bytes (firstn n D).
Proof. intros H. unfold bytes in *. rewrite Forall_forall in *. intros x Hx. apply H. rewrite <- (firstn_skipn n D). apply in_or_app. left. exact Hx. Qed.

Lemma jbytes_stable D n x p pos a b : bytes D -> (pos <= a <= b)%nat -> (b <= length D)%nat ->
  match jbytes D n x p pos a with
  | RDone y q => jbytes D n x p pos b = RDone y q
  | RFail => forall y q, jbytes D n x p pos b <> RDone y q
  | RMore s => jinv D n s a /\ forall y q, jcall D n s b = RDone y q <-> jbytes D n x p pos b = RDone y q
  end.
Proof.
  intros Hb Hp Hl. unfold jbytes.
  pose proof (brun_stable D (Some n) a b Hb ltac:(lia) Hl p pos ltac:(lia)) as S.
  pose proof (brun_pos D (Some n) a Hb ltac:(lia) p pos ltac:(lia)) as P.
  destruct (brun D (Some n) p pos a) as [ds q| |[p' pos']].
  - rewrite S. destruct (q =? n)%nat; [reflexivity|]. intros; discriminate.
  - intros y q E. destruct (brun D (Some n) p pos b) as [ds q'| |[? ?]]; try discriminate.
    destruct (Nat.eqb_spec q' n); [|discriminate]. apply (S ds q'); [cbn; lia|reflexivity].
  - split; [cbn; cbn in P; lia|]. intros y q. cbn [jcall]. unfold jbytes. rewrite S. reflexivity.
Qed.

Lemma jcall_stable D n N : bytes D -> (n <= N)%nat -> (N <= length D)%nat -> stable (jcall D n) (jinv D n) N.
Proof.
  intros Hb Hn HN s a Hi b Hab. destruct s as [p br pos|x p pos]; cbn [jinv jcall] in *.
  - rename Hi into Hi'.
    assert (Ln : length (firstn n D) = n) by (rewrite firstn_length; lia).
    pose proof (section_stable false (firstn n D) p br pos (Nat.min a n) (Nat.min b n) (firstn_bytes n D Hb) Hi' ltac:(lia)) as S.
    rewrite Ln in S. rewrite (Nat.min_r N n) by lia.
    destruct (section_call false (firstn n D) p br pos (Nat.min b n)) as [x c| |p' b' pos'] eqn:E.
    + rewrite <- S. assert (Hc : (c <= Nat.min b n)%nat).
      { eapply section_call_pos; [|exact E]. destruct Hi' as (? & ? & _ & P & _). lia. }
      pose proof (jbytes_stable D n x (read_inter (in_markers x) n) c b N Hb ltac:(lia) HN) as S2.
      destruct (jbytes D n x _ c b); exact S2.
    + rewrite <- S. intros; discriminate.
    + destruct S as (S1 & S2 & S3). split.
      * exact S1.
      * intros y q. cbn [jcall]. rewrite (Nat.min_r N n) by lia. rewrite S3. reflexivity.
  - apply jbytes_stable; auto; lia.
Qed.

Lemma jinit_inv D n w h nc : jinv D n (jinit n w h nc) 0.
Proof. cbn [jinv jinit]. apply binv_init, read_internals_bok. Qed.

(** ** Round trip *)
Lemma jcall_roundtrip w h x inter out rest :
  internals_ok w h x -> length inter = count_marker 255 (in_markers x) -> Forall (fun s => Z.of_nat (length s) < 2 ^ 63) inter ->
  Forall bytes inter -> bytes rest -> encode_aux w h x inter = Some out ->
  bytes out /\
  jcall (out ++ rest) (length out) (jinit (length out) w h (length (in_ids x))) (length (out ++ rest)) = RDone (x, inter) (length out).
Proof.
  intros Hok HL H63 Hib Hrb E. unfold encode_aux in E. destruct (encode_internals w h x) as [fs|] eqn:Ef; [|discriminate].
  cbn [obind] in E. apply some_inj in E. subst out.
  set (tail := encode_inter inter) in *.
  assert (Htail : bytes tail).
  { unfold tail, encode_inter. clear -Hib. induction Hib as [|s l Hs Hl IH]; cbn [flat_map]; [constructor|].
    apply bytes_app. split; [apply bytes_app; split; [apply encode_base128_bytes; lia|exact Hs]|exact IH]. }
  assert (Hout : bytes (pack (fields_bits fs) ++ tail)) by (apply bytes_app; split; [apply pack_bytes|exact Htail]).
  split; [exact Hout|].
  set (out := pack (fields_bits fs) ++ tail) in *.
  assert (Hf : (steps x < 8 * length out + 1)%nat).
  { pose proof (encode_internals_len w h x fs Ef). pose proof (pack_len_ge (fields_bits fs)). unfold out. rewrite app_length. lia. }
  destruct (read_internals_dec w h x fs _ Hok Ef Hf) as [F D].
  unfold jinit. cbn [jcall]. rewrite Nat.min_r by (rewrite app_length; lia).
  rewrite firstn_app_exact. rewrite section_full_asection; [|exact Hout|apply read_internals_bok]. cbn [negb].
  assert (EA : asection true (read_internals (8 * length out + 1) w h (length (in_ids x))) out = Some (x, length (pack (fields_bits fs)))).
  { unfold out at 2. apply asection_pack_app. apply D; lia. }
  rewrite EA.
  unfold jbytes. rewrite (read_inter_run (out ++ rest) (length out) (in_markers x) inter (length (pack (fields_bits fs)))).
  - rewrite Nat.eqb_refl. reflexivity.
  - exact H63.
  - exact HL.
  - rewrite app_length. lia.
  - unfold out. rewrite app_length. reflexivity.
  - exists rest. unfold out. rewrite <- app_assoc, skipn_app_exact. reflexivity.
Qed.
