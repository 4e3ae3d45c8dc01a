(** Round trip and safety of the QuantData section. *)
From Coq Require Import Permutation.
From Verif Require Import Base BitModel BitProofs CodesModel CodesProofs ProgLogic LehmerModel LehmerProofs Tables JpegModel QuantModel.

(** A section whose program decodes exactly the written fields. *)
Lemma section_of_dec {A} (p : prog A) fs a lenient avails :
  dec 0 p (fields_bits fs) a -> bok 0 p ->
  let out := pack (fields_bits fs) in
  nondecreasing 0 avails -> Forall (fun x => (x <= length out)%nat) avails -> In (length out) avails ->
  section_calls lenient out p br_init 0 avails = SDone a (length out).
Proof.
  intros D Hb out H1 H2 H3. rewrite section_chunking; auto; [|apply pack_bytes].
  unfold out. rewrite (asection_pack _ _ _ a); [reflexivity|]. apply D. lia.
Qed.

Lemma F2_length {A B} (R : A -> B -> Prop) l1 l2 : Forall2 R l1 l2 -> length l1 = length l2.
Proof. induction 1; cbn [length]; congruence. Qed.

(** A quantisation table as the JPEG reader produces it. *)
Definition qvalues_ok (prec : Z) (v : list Z) : Prop :=
  length v = 64%nat /\ Forall (fun x => 1 <= x <= 65535) v /\ (prec = 0 -> Forall (fun x => x <= 255) v).

Lemma natural_in_range k : In k kNaturalOrder -> 0 <= k < 64.
Proof.
  intros H. assert (E : forallb (fun x => (0 <=? x) && (x <? 64)) kNaturalOrder = true) by (vm_compute; reflexivity).
  rewrite forallb_forall in E. specialize (E k H). lia.
Qed.

Lemma natural_complete i : (i < 64)%nat -> In (Z.of_nat i) kNaturalOrder.
Proof.
  intros H.
  assert (E : forallb (fun i => existsb (fun x => x =? Z.of_nat i) kNaturalOrder) (seq 0 64) = true) by (vm_compute; reflexivity).
  rewrite forallb_forall in E. specialize (E i). rewrite in_seq in E. specialize (E ltac:(lia)).
  apply existsb_exists in E as (x & H1 & H2). apply Z.eqb_eq in H2. subst. exact H1.
Qed.

Lemma read_quant_delta_dec delta nd :
  Z.abs (nd - delta) - 1 <= 65535 ->
  dec 0 (read_quant_delta delta)
    (fields_bits (if nd - delta =? 0 then [(1%nat, 0)]
       else (1%nat, 1) :: (1%nat, if nd - delta <? 0 then 1 else 0) :: encode_varint (Z.abs (nd - delta) - 1) 16)) nd.
Proof.
  intros H. unfold read_quant_delta. destruct (Z.eqb_spec (nd - delta) 0).
  - apply dec_Need; [cbn; lia|]. cbn [fields_bits]. apply dec_Read; [cbn; lia|]. cbn. replace nd with delta by lia. apply dec_ret.
  - apply dec_Need; [cbn [fields_bits]; rewrite app_length; cbn; lia|]. cbn [fields_bits]. apply dec_Read; [cbn; lia|]. cbn [Z.eqb].
    apply dec_Need; [rewrite app_length; cbn; lia|].
    apply dec_Read; [destruct (_ <? _); cbn; lia|].
    rewrite <- (app_nil_r (fields_bits _)).
    eapply dec_bind; [apply decode_varint_dec; [lia|change (2 ^ Z.of_nat 16) with 65536; lia]| |cbn; lia].
    replace (delta + _) with nd; [apply dec_ret|].
    destruct (Z.ltb_spec (nd - delta) 0); [change (1 =? 0) with false|change (0 =? 0) with true]; cbv iota; lia.
Qed.

Definition filled (done : list Z) (values vals : list Z) : Prop :=
  length vals = 64%nat /\ forall k, In k done -> nat_at vals k = nat_at values k.

Lemma read_quant_diffs_dec prec values pred : qvalues_ok prec values ->
  forall order done delta vals dp fs,
  (forall k, In k order -> 0 <= k < 64) -> (forall k, In k done -> 0 <= k < 64) ->
  filled done values vals -> (dp = 0 \/ dp = 1 /\ prec <> 0) ->
  encode_quant_diffs order values pred delta = Some fs ->
  fields_ok fs /\
  exists vals' dp', filled (done ++ order) values vals' /\ (dp' = 0 \/ dp' = 1 /\ prec <> 0) /\
    dec 0 (read_quant_diffs order pred delta vals dp) (fields_bits fs) (vals', dp').
Proof.
  intros (Hl & Hr & Hp). induction order as [|j r IH]; intros done delta vals dp fs Ho Hd Hf Hdp E; cbn [encode_quant_diffs] in E.
  - injection E as <-. split; [constructor|]. exists vals, dp. rewrite app_nil_r. split; [exact Hf|]. split; [exact Hdp|apply dec_ret].
  - set (nd := nat_at values j - nat_at pred j) in *.
    assert (Hj : 0 <= j < 64) by (apply Ho; left; reflexivity).
    assert (Hv : 1 <= nat_at values j <= 65535).
    { unfold nat_at. rewrite Forall_forall in Hr. apply Hr, nth_In. lia. }
    set (vals1 := upd vals (Z.to_nat j) (nat_at values j)).
    assert (Hf1 : filled (done ++ [j]) values vals1).
    { destruct Hf as [F1 F2]. split; [unfold vals1; rewrite upd_length; exact F1|].
      intros k Hk. unfold nat_at, vals1. destruct (Z.eq_dec k j) as [->|Hne].
      - rewrite nth_upd_same by lia. reflexivity.
      - apply in_app_iff in Hk as [Hk|[Hk|[]]]; [|congruence].
        rewrite nth_upd_other; [apply F2, Hk|]. specialize (Hd k Hk). lia. }
    set (dp1 := if 256 <=? nat_at values j then 1 else dp).
    assert (Hdp1 : dp1 = 0 \/ dp1 = 1 /\ prec <> 0).
    { unfold dp1. destruct (Z.leb_spec 256 (nat_at values j)); [|exact Hdp]. right. split; [reflexivity|]. intros Hz.
      specialize (Hp Hz). rewrite Forall_forall in Hp. specialize (Hp (nat_at values j)).
      assert (In (nat_at values j) values) by (unfold nat_at; apply nth_In; lia). specialize (Hp H0). lia. }
    assert (Hstep : exists t, encode_quant_diffs r values pred nd = Some t /\
       fs = (if nd - delta =? 0 then [(1%nat, 0)]
         else (1%nat, 1) :: (1%nat, if nd - delta <? 0 then 1 else 0) :: encode_varint (Z.abs (nd - delta) - 1) 16) ++ t /\
       Z.abs (nd - delta) - 1 <= 65535).
    { destruct (Z.eqb_spec (nd - delta) 0).
      - destruct (encode_quant_diffs r values pred nd) as [t|]; [|discriminate]. cbn [obind] in E. injection E as <-.
        exists t. repeat split; lia.
      - destruct (Z.ltb_spec 65535 (Z.abs (nd - delta) - 1)); [discriminate|].
        destruct (encode_quant_diffs r values pred nd) as [t|]; [|discriminate]. cbn [obind] in E. injection E as <-.
        exists t. repeat split; lia. }
    destruct Hstep as (t & Et & -> & Hle).
    destruct (IH (done ++ [j]) nd vals1 dp1 t) as (Hok & vals' & dp' & G1 & G2 & G3); auto.
    + intros k Hk. apply Ho; right; exact Hk.
    + intros k Hk. apply in_app_iff in Hk as [Hk|[<-|[]]]; auto.
    + split.
      { apply fields_ok_app. split; [|exact Hok]. destruct (Z.eqb_spec (nd - delta) 0); [fok|].
        apply fields_ok_cons; split; [split; [lia|cbn; lia]|]. apply fields_ok_cons; split; [split; [lia|rewrite pow1; destruct (nd - delta <? 0); lia]|].
        apply encode_varint_ok. lia. }
      exists vals', dp'. rewrite <- app_assoc in G1. split; [exact G1|]. split; [exact G2|].
      cbn [read_quant_diffs]. rewrite fields_bits_app. eapply dec_bind; [apply read_quant_delta_dec; exact Hle| |lia].
      replace (nat_at pred j + nd) with (nat_at values j) by (unfold nd; lia).
      destruct (Z.leb_spec (nat_at values j) 0); [lia|]. destruct (Z.leb_spec 65536 (nat_at values j)); [lia|]. exact G3.
Qed.

Lemma filled_all values vals : length values = 64%nat -> filled kNaturalOrder values vals -> vals = values.
Proof.
  intros Hl [H1 H2]. apply (nth_ext _ _ 0 0); [lia|]. intros i Hi.
  specialize (H2 (Z.of_nat i) (natural_complete i ltac:(lia))). unfold nat_at in H2. rewrite Nat2Z.id in H2. exact H2.
Qed.

Lemma stock_match_spec values : forall tables j c, stock_match j tables values = Some c ->
  (j <= c < j + length tables)%nat /\ nth (c - j) tables [] = values.
Proof.
  induction tables as [|t r IH]; intros j c E; cbn [stock_match] in E; [discriminate|].
  destruct (list_eqb t values) eqn:El.
  - injection E as <-. rewrite Nat.sub_diag. cbn [length nth]. apply list_eqb_eq in El. split; [lia|exact El].
  - destruct (IH (S j) c E) as [H1 H2]. cbn [length]. split; [lia|].
    replace (c - j)%nat with (S (c - S j)) by lia. exact H2.
Qed.

Lemma find_best_lt sel src : forall qs bq bl, (bq < 64)%nat -> (forall q, In q qs -> (q < 64)%nat) -> (find_best sel src qs bq bl < 64)%nat.
Proof.
  induction qs as [|q r IH]; intros bq bl Hb Hq; cbn [find_best]; [exact Hb|].
  destruct (_ <? _); apply IH; auto; try (intros; apply Hq; right; assumption). apply Hq; left; reflexivity.
Qed.

Lemma find_best_matrix_lt sel src : (find_best_matrix sel src < 64)%nat.
Proof. apply find_best_lt; [lia|]. intros q Hq. apply in_seq in Hq. lia. Qed.

Lemma stock_tables_small sel code : (sel < 2)%nat -> (code < 8)%nat ->
  Forall (fun x => 1 <= x <= 255) (nth code (nth sel kStockQuant []) []) /\ length (nth code (nth sel kStockQuant []) []) = 64%nat.
Proof.
  intros H1 H2.
  assert (E : forallb (fun s => forallb (fun c => forallb (fun x => (1 <=? x) && (x <=? 255)) (nth c (nth s kStockQuant []) [])
                && (length (nth c (nth s kStockQuant []) []) =? 64)%nat) (seq 0 8)) (seq 0 2) = true) by (vm_compute; reflexivity).
  rewrite forallb_forall in E. specialize (E sel ltac:(apply in_seq; lia)).
  rewrite forallb_forall in E. specialize (E code ltac:(apply in_seq; lia)).
  apply andb_true_iff in E as [E1 E2]. split; [|lia].
  rewrite forallb_forall in E1. apply Forall_forall. intros x Hx. specialize (E1 x Hx). lia.
Qed.

Lemma read_quant_table_dec i prec values fs : qvalues_ok prec values -> 0 <= prec ->
  encode_quant_table i values = Some fs ->
  fields_ok fs /\ dec 0 (read_quant_table i prec) (fields_bits fs) values.
Proof.
  intros Hq Hp E. unfold encode_quant_table in E. destruct (forallb _ _); [|discriminate].
  unfold read_quant_table. set (sel := Nat.min i 1) in *.
  assert (Hsel : (sel < 2)%nat) by (unfold sel; lia).
  destruct (stock_match 0 (nth sel kStockQuant []) values) as [code|] eqn:Em.
  - injection E as <-. destruct (stock_match_spec _ _ _ _ Em) as [S1 S2]. rewrite Nat.sub_0_r in S2.
    assert (Hlen : length (nth sel kStockQuant []) = 8%nat).
    { destruct sel as [|[|]]; [reflexivity|reflexivity|lia]. }
    rewrite Hlen in S1.
    assert (Hc : 0 <= Z.of_nat code < 2 ^ Z.of_nat 3) by (change (2 ^ Z.of_nat 3) with 8; lia).
    split; [apply fields_ok_cons; split; [split; [lia|cbn; lia]|]; apply fields_ok_cons; split; [split; [lia|exact Hc]|apply fields_ok_nil]|].
    rewrite <- (app_nil_r (fields_bits _)). eapply dec_bind with (a := (values, 0)) (k1 := 0%nat).
    + apply dec_Need; [cbn; lia|]. cbn [fields_bits]. apply dec_Read; [cbn; lia|]. cbn [Z.eqb].
      apply dec_Read; [exact Hc|]. rewrite Nat2Z.id, S2. apply dec_ret.
    + destruct (Z.ltb_spec prec 0); [lia|]. apply dec_ret.
    + lia.
  - destruct (encode_quant_diffs _ _ _ _) as [t|] eqn:Ed; [|discriminate]. cbn [obind] in E. injection E as <-.
    set (q := find_best_matrix sel values) in *.
    destruct (read_quant_diffs_dec prec values (fill_quant sel (Z.of_nat q)) Hq kNaturalOrder [] 0 (repeat 0 64) 0 t)
      as (Hok & vals' & dp' & G1 & G2 & G3); auto.
    { apply natural_in_range. }
    { intros k []. }
    { split; [apply repeat_length|intros k []]. }
    cbn [app] in G1. apply filled_all in G1; [|apply Hq]. subst vals'.
    pose proof (find_best_matrix_lt sel values) as Hlt. fold q in Hlt.
    assert (Hc : 0 <= Z.of_nat q < 2 ^ Z.of_nat 6) by (change (2 ^ Z.of_nat 6) with 64; lia).
    split; [apply fields_ok_cons; split; [split; [lia|cbn; lia]|]; apply fields_ok_cons; split; [split; [lia|exact Hc]|exact Hok]|].
    rewrite <- (app_nil_r (fields_bits _)). eapply dec_bind with (a := (values, dp')) (k1 := 0%nat).
    + apply dec_Need; [cbn [fields_bits]; rewrite !app_length; cbn; lia|]. cbn [fields_bits]. apply dec_Read; [cbn; lia|]. cbn [Z.eqb].
      apply dec_Need; [rewrite app_length; cbn; lia|]. apply dec_Read; [exact Hc|]. exact G3.
    + destruct (Z.ltb_spec prec dp'); [exfalso; destruct G2 as [->|[-> ?]]; lia|]. apply dec_ret.
    + lia.
Qed.

Lemma read_quant_list_dec : forall qs i precs fs,
  Forall2 (fun p v => 0 <= p /\ qvalues_ok p v) precs qs ->
  encode_quant_list i qs = Some fs ->
  fields_ok fs /\ dec 0 (read_quant_list i precs) (fields_bits fs) qs.
Proof.
  induction qs as [|q r IH]; intros i precs fs HF E; cbn [encode_quant_list] in E.
  - injection E as <-. inversion HF; subst. split; [apply fields_ok_nil|apply dec_ret].
  - inversion HF as [|p v ps qs' [H1 H2] HF']; subst.
    destruct (encode_quant_table i q) as [a|] eqn:E1; [|discriminate]. cbn [obind] in E.
    destruct (encode_quant_list (S i) r) as [b|] eqn:E2; [|discriminate]. cbn [obind] in E. injection E as <-.
    destruct (read_quant_table_dec i p q a H2 H1 E1) as [F1 D1]. destruct (IH (S i) ps b HF' E2) as [F2 D2].
    split; [apply fields_ok_app; auto|]. rewrite fields_bits_app. cbn [read_quant_list].
    eapply dec_bind; [exact D1| |lia]. rewrite <- (app_nil_r (fields_bits b)). eapply dec_bind; [exact D2|apply dec_ret|lia].
Qed.

Lemma read_quant_idx_dec num : num <= 4 -> forall idx, Forall (fun x => 0 <= x < num) idx ->
  fields_ok (map (fun x => (2%nat, x)) idx) /\
  dec 0 (read_quant_idx (length idx) num) (fields_bits (map (fun x => (2%nat, x)) idx)) idx.
Proof.
  intros Hn. induction 1 as [|x r Hx HF [F D]]; cbn [map length read_quant_idx fields_bits].
  - split; [apply fields_ok_nil|apply dec_ret].
  - assert (0 <= x < 2 ^ Z.of_nat 2) by (change (2 ^ Z.of_nat 2) with 4; lia).
    split; [apply fields_ok_cons; split; [split; [lia|assumption]|exact F]|].
    apply dec_Need; [rewrite app_length, bits_of_length; lia|]. apply dec_Read; [assumption|].
    destruct (Z.leb_spec num x); [lia|]. rewrite <- (app_nil_r (fields_bits _)). eapply dec_bind; [exact D|apply dec_ret|lia].
Qed.

Lemma read_quant_section_dec precs tables idx fs :
  Forall2 (fun p v => 0 <= p /\ qvalues_ok p v) precs tables ->
  Forall (fun x => 0 <= x < Z.of_nat (length tables)) idx ->
  encode_quant_tables tables idx = Some fs ->
  fields_ok fs /\ dec 0 (read_quant_section precs (length idx)) (fields_bits fs) (tables, idx).
Proof.
  intros HF Hi E. unfold encode_quant_tables in E. destruct tables as [|t0 ts]; [discriminate|].
  destruct (Nat.ltb_spec 4 (length (t0 :: ts))); [discriminate|].
  destruct (encode_quant_list 0 (t0 :: ts)) as [t|] eqn:El; [|discriminate]. cbn [obind] in E. injection E as <-.
  pose proof (F2_length _ _ _ HF) as HL.
  destruct (read_quant_list_dec _ _ _ _ HF El) as [F1 D1].
  destruct (read_quant_idx_dec (Z.of_nat (length (t0 :: ts))) ltac:(lia) idx Hi) as [F2 D2].
  set (tabs := t0 :: ts) in *. assert (Hpos : (0 < length tabs)%nat) by (unfold tabs; cbn; lia).
  assert (Hc : 0 <= Z.of_nat (length tabs) - 1 < 2 ^ Z.of_nat 2) by (change (2 ^ Z.of_nat 2) with 4; lia).
  split; [apply fields_ok_cons; split; [split; [lia|exact Hc]|apply fields_ok_app; auto]|].
  unfold read_quant_section. cbn [fields_bits]. rewrite fields_bits_app.
  apply dec_Need; [rewrite app_length, bits_of_length; lia|]. apply dec_Read; [exact Hc|].
  cbv beta. rewrite HL. change (Z.of_nat (S (length ts))) with (Z.of_nat (length tabs)).
  replace (Z.of_nat (length tabs) - 1 + 1 =? Z.of_nat (length tabs)) with true by lia. cbn [negb].
  eapply dec_bind; [exact D1| |lia]. rewrite <- (app_nil_r (fields_bits (map _ _))). eapply dec_bind; [exact D2|apply dec_ret|lia].
Qed.

(** * All outcomes *)

Lemma read_quant_delta_bok d b : bok b (read_quant_delta d).
Proof.
  unfold read_quant_delta, Read. cbn [bok]. split; [lia|]. split; [lia|]. intros v _. split; [lia|].
  destruct (v =? 0); [exact I|]. cbn [bok]. split; [lia|]. split; [lia|]. intros w _. split; [lia|].
  apply bok_bind; [apply bok_decode_varint|intros; exact I].
Qed.

Lemma read_quant_diffs_bok pred : forall order d vals dp b, bok b (read_quant_diffs order pred d vals dp).
Proof.
  induction order as [|k r IH]; intros d vals dp b; cbn [read_quant_diffs]; [exact I|].
  apply bok_bind; [apply read_quant_delta_bok|]. intros a. destruct (_ <=? 0); [exact I|]. destruct (65536 <=? _); [exact I|]. apply IH.
Qed.

Lemma read_quant_table_bok i p b : bok b (read_quant_table i p).
Proof.
  unfold read_quant_table. apply bok_bind.
  - unfold Read. cbn [bok]. split; [lia|]. split; [lia|]. intros v _. split; [lia|]. destruct (v =? 0); cbn [bok].
    + split; [lia|]. split; [lia|]. intros w _. split; [lia|exact I].
    + split; [lia|]. split; [lia|]. intros w _. split; [lia|]. apply read_quant_diffs_bok.
  - intros [vals dp]. destruct (_ <? _); exact I.
Qed.

Lemma read_quant_list_bok : forall precs i b, bok b (read_quant_list i precs).
Proof.
  induction precs as [|p r IH]; intros i b; cbn [read_quant_list]; [exact I|].
  apply bok_bind; [apply read_quant_table_bok|]. intros t. apply bok_bind; [apply IH|intros; exact I].
Qed.

Lemma read_quant_idx_bok num : forall n b, bok b (read_quant_idx n num).
Proof.
  induction n as [|n IH]; intros b; cbn [read_quant_idx]; [exact I|]. unfold Read; cbn [bok].
  split; [lia|]. split; [lia|]. intros v _. split; [lia|]. destruct (_ <=? _); [exact I|]. apply bok_bind; [apply IH|intros; exact I].
Qed.

Lemma read_quant_section_bok precs n : bok 0 (read_quant_section precs n).
Proof.
  unfold read_quant_section, Read. cbn [bok]. split; [lia|]. split; [lia|]. intros v _. split; [lia|].
  destruct (negb _); [exact I|]. apply bok_bind; [apply read_quant_list_bok|]. intros ts.
  apply bok_bind; [apply read_quant_idx_bok|intros; exact I].
Qed.

Lemma pall_true {A} (p : prog A) : pall (fun _ => True) p.
Proof. induction p as [a| |n f k IH|n p IH|p IH]; cbn [pall]; auto. Qed.

Definition vals_part (done : list Z) (prec : bool) (vals : list Z) : Prop :=
  length vals = 64%nat /\ forall k, In k done -> 1 <= nat_at vals k <= 65535 /\ (prec = false -> nat_at vals k <= 255).

Lemma read_quant_diffs_pall pred : forall order done d vals dp,
  (forall k, In k (done ++ order) -> 0 <= k < 64) -> (dp = 0 \/ dp = 1) -> vals_part done (dp =? 1) vals ->
  pall (fun '(v, dp') => (dp' = 0 \/ dp' = 1) /\ vals_part (done ++ order) (dp' =? 1) v) (read_quant_diffs order pred d vals dp).
Proof.
  induction order as [|k r IH]; intros done d vals dp Hk Hdp Hv; cbn [read_quant_diffs].
  - cbn [pall]. rewrite app_nil_r in *. auto.
  - eapply pall_bind with (P := fun _ => True).
    { apply pall_true. }
    intros delta' _. destruct (Z.leb_spec (nat_at pred k + delta') 0); [exact I|].
    destruct (Z.leb_spec 65536 (nat_at pred k + delta')); [exact I|].
    set (x := nat_at pred k + delta') in *.
    replace (done ++ k :: r) with ((done ++ [k]) ++ r) in * by (rewrite <- app_assoc; reflexivity).
    apply IH; [exact Hk|destruct (256 <=? x); auto|].
    assert (Hkk : 0 <= k < 64) by (apply Hk; rewrite <- app_assoc; apply in_app_iff; right; left; reflexivity).
    destruct Hv as [L Hv]. split; [rewrite upd_length; exact L|].
    intros j Hj. unfold nat_at. destruct (Z.eq_dec j k) as [->|Hne].
    + rewrite nth_upd_same by lia. split; [lia|]. destruct (Z.leb_spec 256 x); [discriminate|]. intros _. lia.
    + apply in_app_iff in Hj as [Hj|[Hj|[]]]; [|congruence].
      assert (0 <= j < 64) by (apply Hk, in_app_iff; left; apply in_app_iff; left; exact Hj).
      rewrite nth_upd_other by lia. destruct (Hv j Hj) as [H2 H3]. split; [exact H2|].
      intros E. apply H3. destruct Hdp as [->| ->]; [reflexivity|]. destruct (256 <=? x); discriminate.
Qed.

Lemma read_quant_table_pall i p : pall (qvalues_ok p) (read_quant_table i p).
Proof.
  unfold read_quant_table. eapply pall_bind with (P := fun '(v, dp) => (dp = 0 \/ dp = 1) /\ vals_part kNaturalOrder (dp =? 1) v).
  - cbn [pall]. unfold Read; cbn [pall]. intros b _. destruct (b =? 0); cbn [pall].
    + intros c Hc. change (2 ^ Z.of_nat 3) with 8 in Hc. split; [left; reflexivity|].
      destruct (stock_tables_small (Nat.min i 1) (Z.to_nat c)) as [S1 S2]; [lia|lia|]. split; [exact S2|].
      intros k Hk. apply natural_in_range in Hk. rewrite Forall_forall in S1. unfold nat_at.
      specialize (S1 (nth (Z.to_nat k) (nth (Z.to_nat c) (nth (Nat.min i 1) kStockQuant []) []) 0) ltac:(apply nth_In; lia)).
      split; [lia|intros _; lia].
    + intros q _. apply (read_quant_diffs_pall _ kNaturalOrder []); [apply natural_in_range|left; reflexivity|].
      split; [apply repeat_length|intros k []].
  - intros [v dp] [H1 [L H2]]. destruct (Z.ltb_spec p dp); [exact I|]. cbn [pall].
    assert (A : forall x, In x v -> exists k, In k kNaturalOrder /\ x = nat_at v k).
    { intros x Hx. apply In_nth with (d := 0) in Hx as (n & Hn & <-). exists (Z.of_nat n).
      split; [apply natural_complete; lia|]. unfold nat_at. rewrite Nat2Z.id. reflexivity. }
    split; [exact L|]. split.
    + apply Forall_forall. intros x Hx. destruct (A x Hx) as (k & Hk & ->). apply H2, Hk.
    + intros ->. apply Forall_forall. intros x Hx. destruct (A x Hx) as (k & Hk & ->). apply H2; [exact Hk|]. lia.
Qed.

Lemma read_quant_section_pall precs n :
  pall (fun '(ts, idx) => Forall2 qvalues_ok precs ts /\ length idx = n /\ Forall (fun x => 0 <= x < Z.of_nat (length precs)) idx)
    (read_quant_section precs n).
Proof.
  unfold read_quant_section, Read. cbn [pall]. intros v _. destruct (negb _); [exact I|].
  eapply pall_bind with (P := Forall2 qvalues_ok precs).
  - generalize 0%nat. induction precs as [|p r IH]; intros i; cbn [read_quant_list]; [constructor|].
    eapply pall_bind; [apply read_quant_table_pall|]. intros t Ht. eapply pall_bind; [apply IH|]. intros ts Hts. constructor; assumption.
  - intros ts Hts. eapply pall_bind with (P := fun idx => length idx = n /\ Forall (fun x => 0 <= x < Z.of_nat (length precs)) idx).
    + clear. induction n as [|n IH]; cbn [read_quant_idx]; [split; [reflexivity|constructor]|].
      unfold Read. cbn [pall]. intros x Hx. destruct (Z.leb_spec (Z.of_nat (length precs)) x); [exact I|].
      eapply pall_bind; [apply IH|]. intros l [H1 H2]. cbn [pall length]. split; [lia|constructor; [lia|exact H2]].
    + intros idx [H1 H2]. cbn [pall]. auto.
Qed.
