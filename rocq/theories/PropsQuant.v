(** C22: quantisation tables. *)
From Verif Require Import Base BitModel BitProofs CodesModel CodesProofs ProgLogic LehmerModel LehmerProofs Tables JpegModel QuantModel QuantProofs.

(** What the JPEG reader guarantees about a table: 64 values in 1..65535, at most
    255 when the table is declared 8-bit (precision 0). *)
Definition table_ok (precision : Z) (values : list Z) : Prop :=
  length values = 64%nat /\ Forall (fun x => 1 <= x <= 65535) values /\ (precision = 0 -> Forall (fun x => x <= 255) values).

(** Whatever tables and component assignments the encoder stores, the decoder
    gets them back exactly, the section arriving in any pieces. *)
Theorem C22_quant_tables_round_trip :
  forall (precisions : list Z) (tables : list (list Z)) (quant_idx : list Z) (fs : list (nat * Z)) (avails : list nat),
    Forall2 (fun p v => (p = 0 \/ p = 1) /\ table_ok p v) precisions tables ->
    Forall (fun x => 0 <= x < Z.of_nat (length tables)) quant_idx ->
    encode_quant_tables tables quant_idx = Some fs ->
    fields_ok fs /\
    let out := pack (fields_bits fs) in
    (nondecreasing 0 avails -> Forall (fun x => (x <= length out)%nat) avails -> In (length out) avails ->
     section_calls false out (read_quant_section precisions (length quant_idx)) br_init 0 avails
       = SDone (tables, quant_idx) (length out)).
Proof.
  intros precs tables idx fs avails HF Hi E.
  assert (HF' : Forall2 (fun p v => 0 <= p /\ qvalues_ok p v) precs tables).
  { clear -HF. induction HF as [|p v ps vs [Hp Hv] HF IH]; constructor; [|exact IH]. split; [lia|exact Hv]. }
  destruct (read_quant_section_dec precs tables idx fs HF' Hi E) as [F D]. split; [exact F|].
  intros out H1 H2 H3. apply section_of_dec; auto. apply read_quant_section_bok.
Qed.
Print Assumptions C22_quant_tables_round_trip.

(** The encoder never refuses 1..4 tables of 8-bit values. *)
Lemma quant_diffs_total values pred : Forall (fun x => 1 <= x <= 255) pred -> Forall (fun x => 1 <= x <= 255) values ->
  length pred = 64%nat -> length values = 64%nat ->
  forall order last, (forall k, In k order -> 0 <= k < 64) -> -254 <= last <= 254 -> encode_quant_diffs order values pred last <> None.
Proof.
  intros Hp Hv Lp Lv. induction order as [|j r IH]; intros last Ho Hl; cbn [encode_quant_diffs]; [discriminate|].
  assert (Hj : 0 <= j < 64) by (apply Ho; left; reflexivity).
  assert (1 <= nat_at values j <= 255) by (rewrite Forall_forall in Hv; apply Hv; unfold nat_at; apply nth_In; lia).
  assert (1 <= nat_at pred j <= 255) by (rewrite Forall_forall in Hp; apply Hp; unfold nat_at; apply nth_In; lia).
  specialize (IH (nat_at values j - nat_at pred j) ltac:(intros; apply Ho; right; assumption) ltac:(lia)).
  destruct (encode_quant_diffs r _ _ _); [|congruence].
  destruct (_ =? 0); cbn [obind]; [discriminate|]. destruct (Z.ltb_spec 65535 (Z.abs (nat_at values j - nat_at pred j - last) - 1)); [lia|].
  discriminate.
Qed.

Lemma fill_quant_range sel q : (sel < 2)%nat -> Forall (fun x => 1 <= x <= 255) (fill_quant sel q) /\ length (fill_quant sel q) = 64%nat.
Proof.
  intros H. unfold fill_quant. split.
  - rewrite Forall_map. apply Forall_forall. intros x _. cbv zeta. destruct (Z.ltb_spec (Z.shiftr (x * q + 32) 6) 1); [lia|].
    destruct (Z.ltb_spec 255 (Z.shiftr (x * q + 32) 6)); lia.
  - rewrite map_length. destruct sel as [|[|]]; [reflexivity|reflexivity|lia].
Qed.

Theorem C22_eight_bit_tables_never_refused :
  forall (tables : list (list Z)) (quant_idx : list Z),
    (1 <= length tables <= 4)%nat ->
    Forall (fun v => length v = 64%nat /\ Forall (fun x => 1 <= x <= 255) v) tables ->
    exists fs, encode_quant_tables tables quant_idx = Some fs.
Proof.
  intros tables idx HL HF. unfold encode_quant_tables.
  assert (E : forall i, encode_quant_list i tables <> None).
  { clear HL. induction HF as [|v r [Lv Hv] HF IH]; intros i; cbn [encode_quant_list]; [discriminate|].
    assert (T : encode_quant_table i v <> None).
    { unfold encode_quant_table.
      assert (Hz : forallb (fun j => negb (nat_at v j =? 0)) kNaturalOrder = true).
      { apply forallb_forall. intros j Hj. apply natural_in_range in Hj. rewrite Forall_forall in Hv.
        specialize (Hv (nat_at v j) ltac:(unfold nat_at; apply nth_In; lia)). lia. }
      rewrite Hz. destruct (stock_match _ _ _); [discriminate|].
      destruct (fill_quant_range (Nat.min i 1) (Z.of_nat (find_best_matrix (Nat.min i 1) v)) ltac:(lia)) as [R1 R2].
      pose proof (quant_diffs_total v _ R1 Hv R2 Lv kNaturalOrder 0 natural_in_range ltac:(lia)) as T.
      destruct (encode_quant_diffs _ _ _ _); [discriminate|congruence]. }
    destruct (encode_quant_table i v); [|congruence]. specialize (IH (S i)). cbn [obind].
    destruct (encode_quant_list (S i) r); [discriminate|congruence]. }
  specialize (E 0%nat). destruct tables as [|t0 ts]; [cbn in HL; lia|].
  destruct (Nat.ltb_spec 4 (length (t0 :: ts))); [lia|].
  destruct (encode_quant_list 0 (t0 :: ts)); [eexists; reflexivity|congruence].
Qed.
Print Assumptions C22_eight_bit_tables_never_refused.

(** Whatever bytes the section holds: if it is accepted, every table is valid for
    its declared precision and every component refers to an existing table. *)
Theorem C22_accepted_tables_are_valid :
  forall (precisions : list Z) (ncomp : nat) (section : list Z) (avails : list nat) tables quant_idx used,
    bytes section -> nondecreasing 0 avails -> Forall (fun x => (x <= length section)%nat) avails ->
    section_calls false section (read_quant_section precisions ncomp) br_init 0 avails = SDone (tables, quant_idx) used ->
    Forall2 table_ok precisions tables /\ length quant_idx = ncomp /\
    Forall (fun x => 0 <= x < Z.of_nat (length tables)) quant_idx.
Proof.
  intros precs n sec avails tables idx used Hb H1 H2 E.
  pose proof (section_pall _ _ _ _ _ _ _ Hb (read_quant_section_bok precs n) (read_quant_section_pall precs n) H1 H2 E) as P.
  cbv beta in P. destruct P as (P1 & P2 & P3). split; [exact P1|]. split; [exact P2|].
  rewrite <- (F2_length _ _ _ P1). exact P3.
Qed.
Print Assumptions C22_accepted_tables_are_valid.

(** Non-vacuity: a stock luma table, a custom 8-bit table and a 16-bit one. *)
Definition ex_q1 : list Z := map (fun x => x mod 200 + 1) (map (fun k => Z.of_nat k * 7 + 3) (seq 0 64)).
Definition ex_q2 : list Z := map (fun k => 1 + (Z.of_nat k * 997) mod 40000) (seq 0 64).
Lemma table_okb p v : (length v =? 64)%nat && forallb (fun x => (1 <=? x) && (x <=? 65535)) v && ((negb (p =? 0)) || forallb (fun x => x <=? 255) v) = true -> table_ok p v.
Proof.
  intros H. apply andb_prop in H. destruct H as [H H3]. apply andb_prop in H. destruct H as [H1 H2]. split; [lia|]. split.
  - apply Forall_forall. intros x Hx. rewrite forallb_forall in H2. specialize (H2 x Hx). lia.
  - intros ->. change (forallb (fun x => x <=? 255) v = true) in H3. apply Forall_forall. intros x Hx. rewrite forallb_forall in H3. specialize (H3 x Hx). lia.
Qed.

Example C22_case :
  let tables := [nth 1 (nth 0 kStockQuant []) []; ex_q1; ex_q2] in
  Forall2 (fun p v => (p = 0 \/ p = 1) /\ table_ok p v) [0; 0; 1] tables /\
  match encode_quant_tables tables [0; 1; 2] with
  | Some fs => let out := pack (fields_bits fs) in
      section_calls false out (read_quant_section [0; 0; 1] 3) br_init 0 [5; 7; length out]%nat = SDone (tables, [0; 1; 2]) (length out)
  | None => False
  end.
Proof.
  split; [|vm_compute; reflexivity].
  constructor; [split; [lia|apply table_okb; vm_compute; reflexivity]|].
  constructor; [split; [lia|apply table_okb; vm_compute; reflexivity]|].
  constructor; [split; [lia|apply table_okb; vm_compute; reflexivity]|constructor].
Qed.
