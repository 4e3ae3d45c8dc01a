(** Model of the adaptive bit probability (c/common/distributions.h). *)
From Verif Require Import Base.

(** c/common/distributions.h:28-52, [kDivLut17]. *)
Definition kDivLut17 : list Z :=
  [0; 0; 0; 43690; 32768; 26214; 21845; 18724; 16384; 14563; 13107;
   11915; 10922; 10082; 9362; 8738; 8192; 7710; 7281; 6898; 6553; 6241;
   5957; 5698; 5461; 5242; 5041; 4854; 4681; 4519; 4369; 4228; 4096;
   3971; 3855; 3744; 3640; 3542; 3449; 3360; 3276; 3196; 3120; 3048;
   2978; 2912; 2849; 2788; 2730; 2674; 2621; 2570; 2520; 2473; 2427;
   2383; 2340; 2299; 2259; 2221; 2184; 2148; 2114; 2080; 2048; 2016;
   1985; 1956; 1927; 1899; 1872; 1846; 1820; 1795; 1771; 1747; 1724;
   1702; 1680; 1659; 1638; 1618; 1598; 1579; 1560; 1542; 1524; 1506;
   1489; 1472; 1456; 1440; 1424; 1409; 1394; 1379; 1365; 1351; 1337;
   1323; 1310; 1297; 1285; 1272; 1260; 1248; 1236; 1224; 1213; 1202;
   1191; 1180; 1170; 1159; 1149; 1139; 1129; 1120; 1110; 1101; 1092;
   1083; 1074; 1065; 1057; 1048; 1040; 1032; 1024; 1016; 1008; 1000;
   992; 985; 978; 970; 963; 956; 949; 942; 936; 929; 923;
   916; 910; 903; 897; 891; 885; 879; 873; 868; 862; 856;
   851; 845; 840; 834; 829; 824; 819; 814; 809; 804; 799;
   794; 789; 784; 780; 775; 771; 766; 762; 757; 753; 748;
   744; 740; 736; 732; 728; 724; 720; 716; 712; 708; 704;
   700; 697; 693; 689; 686; 682; 679; 675; 672; 668; 665;
   661; 658; 655; 652; 648; 645; 642; 639; 636; 633; 630;
   627; 624; 621; 618; 615; 612; 609; 606; 604; 601; 598;
   595; 593; 590; 587; 585; 582; 579; 577; 574; 572; 569;
   567; 564; 562; 560; 557; 555; 553; 550; 548; 546; 543;
   541; 539; 537; 534; 532; 530; 528; 526; 524; 522; 520;
   518; 516].

(** c/common/distributions.h:26. *)
Definition kNormalizeThreshold : Z := 254.

(** c/common/distributions.h:64-105, class [Prob]: fields prob8 (uint8),
    total (uint8), count (uint16). *)
Record prob := mkProb { p_prob8 : Z; p_total : Z; p_count : Z }.

(** c/common/distributions.h:54-59, [FastDivide]; the table lookup is
    [None] when out of range (undefined behaviour in the code); 32-bit
    multiplication and the final cast to uint8 wrap. *)
Definition fast_divide (num den : Z) : option Z :=
  match nth_error kDivLut17 (Z.to_nat den) with
  | Some q => Some ((num * q mod 2 ^ 32 / 2 ^ 17) mod 2 ^ 8)
  | None => None
  end.

(** c/common/distributions.h:61-62,70-73: default constructor. *)
Definition prob_default : prob := mkProb 134 3 402.

(** c/common/distributions.h:76-80, [Prob::Init]. *)
Definition prob_init (p : Z) : prob := mkProb p 3 (3 * p mod 2 ^ 16).

(** c/common/distributions.h:82-94, [Prob::Add]; [bit = false] is val == 0. All stores
    truncate to the field widths.  [None] = out of bounds table access. *)
Definition prob_add_opt (p : prob) (bit : bool) : option prob :=
  let total := (p_total p + 1) mod 2 ^ 8 in
  let count := (p_count p + (if bit then 1 else 256)) mod 2 ^ 16 in
  match fast_divide count total with
  | Some q =>
      Some (if total =? kNormalizeThreshold
            then mkProb q 127 (count / 2)
            else mkProb q total count)
  | None => None
  end.

(** Total version used by the codec models ([prob_add_opt] never fails on
    reachable states, see [prob_reachable_ok]). *)
Definition prob_add (p : prob) (bit : bool) : prob :=
  match prob_add_opt p bit with Some q => q | None => p end.

(** * Specification and proofs *)

(** Valid probability objects: what every constructor produces and every
    update keeps. *)
Definition prob_ok (p : prob) : Prop :=
  0 <= p_prob8 p <= 255 /\ 3 <= p_total p < 254 /\
  0 <= p_count p <= 256 * p_total p - 1.

Lemma kDivLut17_spec : forall t, 3 <= t <= 254 ->
  nth_error kDivLut17 (Z.to_nat t) = Some (2 ^ 17 / t).
Proof.
  assert (H : forallb (fun i => match nth_error kDivLut17 i with
                                | Some q => q =? 2 ^ 17 / Z.of_nat i
                                | None => false end) (seq 3 252) = true) by (vm_compute; reflexivity).
  intros t Ht. rewrite forallb_forall in H.
  specialize (H (Z.to_nat t)).
  destruct (nth_error kDivLut17 (Z.to_nat t)) as [q|].
  - rewrite Z2Nat.id in H by lia.
    apply f_equal. apply Z.eqb_eq. apply H. apply in_seq. lia.
  - discriminate H. apply in_seq. lia.
Qed.

Lemma kDivLut17_length : length kDivLut17 = 255%nat.
Proof. reflexivity. Qed.

(** The exact quotient used by the code. *)
Definition fixed_quotient (count total : Z) : Z := count * (2 ^ 17 / total) / 2 ^ 17.

Lemma prob_add_spec (p : prob) (bit : bool) : prob_ok p ->
  let total := p_total p + 1 in
  let count := p_count p + (if bit then 1 else 256) in
  prob_add_opt p bit =
    Some (if total =? 254 then mkProb (fixed_quotient count total) 127 (count / 2)
          else mkProb (fixed_quotient count total) total count) /\
  0 <= fixed_quotient count total <= count / total /\ count / total <= 255 /\
  0 <= count < 2 ^ 16 /\ total <= 254 /\ count * (2 ^ 17 / total) < 2 ^ 32.
Proof.
  intros (Hp & Ht & Hc) total count.
  unfold prob_add_opt.
  rewrite (Z.mod_small (p_total p + 1)) by lia.
  assert (Hcount : 0 <= count <= 256 * total - 1) by (unfold count, total; destruct bit; lia).
  assert (Htot : 4 <= total <= 254) by (unfold total; lia).
  change (p_count p + (if bit then 1 else 256)) with count.
  change (p_total p + 1) with total.
  rewrite (Z.mod_small count) by lia.
  unfold fast_divide. rewrite kDivLut17_spec by lia.
  assert (Hq : 0 <= 2 ^ 17 / total /\ total * (2 ^ 17 / total) <= 2 ^ 17) by (split; [apply Z.div_pos; lia | apply Z.mul_div_le; lia]).
  set (q := 2 ^ 17 / total) in *.
  assert (Hq2 : count * q < 2 ^ 25) by nia.
  assert (Hq3 : 0 <= count * q) by nia.
  rewrite (Z.mod_small (count * q)) by lia.
  assert (Hfq : fixed_quotient count total = count * q / 2 ^ 17) by reflexivity.
  assert (Hle : count * q / 2 ^ 17 <= count / total).
  { apply Z.div_le_lower_bound; [lia|].
    assert (count * q / 2 ^ 17 * 2 ^ 17 <= count * q) by (rewrite Z.mul_comm; apply Z.mul_div_le; lia).
    nia. }
  assert (Hnn : 0 <= count * q / 2 ^ 17) by (apply Z.div_pos; lia).
  assert (Hct : count / total <= 255) by (apply Z.lt_succ_r; apply Z.div_lt_upper_bound; lia).
  rewrite (Z.mod_small (count * q / 2 ^ 17)) by lia.
  rewrite <- Hfq. unfold kNormalizeThreshold.
  repeat split; try lia; try reflexivity.
Qed.

Lemma prob_add_ok p bit : prob_ok p -> exists q, prob_add_opt p bit = Some q /\ prob_ok q.
Proof.
  intros H. pose proof (prob_add_spec p bit H) as S. cbv zeta in S.
  destruct H as (Hp & Ht & Hc). destruct S as (E & Hfq & Hd & Hcnt & _).
  eexists; split; [exact E|].
  destruct (p_total p + 1 =? 254) eqn:Et; unfold prob_ok; cbn [p_prob8 p_total p_count].
  - destruct bit; dlia.
  - destruct bit; lia.
Qed.

Lemma prob_add_total_ok p bit : prob_ok p -> prob_ok (prob_add p bit).
Proof. intros H. destruct (prob_add_ok p bit H) as (q & E & Hq). unfold prob_add; rewrite E; exact Hq. Qed.

Lemma prob_default_ok : prob_ok prob_default.
Proof. unfold prob_ok, prob_default; cbn; lia. Qed.

Lemma prob_init_ok p : 0 <= p <= 255 -> prob_ok (prob_init p).
Proof. intros H. unfold prob_ok, prob_init; cbn [p_prob8 p_total p_count]. rewrite Z.mod_small by lia. lia. Qed.

(** Run of any history of coded bits, failing on undefined behaviour. *)
Fixpoint prob_run (p : prob) (h : list bool) : option prob :=
  match h with
  | [] => Some p
  | b :: h' => match prob_add_opt p b with Some q => prob_run q h' | None => None end
  end.

Lemma prob_run_ok h : forall p, prob_ok p -> exists q, prob_run p h = Some q /\ prob_ok q.
Proof.
  induction h as [|b h IH]; intros p H; cbn [prob_run]; [eauto|].
  destruct (prob_add_ok p b H) as (q & E & Hq). rewrite E. apply IH; exact Hq.
Qed.
