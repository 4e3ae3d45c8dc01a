(** The section decoders can be suspended anywhere: laws for each of them. *)
From Verif Require Import Base BitModel BitProofs ProgLogic Stream BitSteady CodesModel CodesProofs JpegModel QuantModel InternalsModel InternalsProofs3 MetaModel MetaProofs SectionSteady HeaderModel HeaderProofs Machine
  HuffModel HSecModel CoefModel WordModel WordProofs NeedProofs Decoder.

(** Whatever the complete call guarantees holds for every result. *)
Lemma laws_out {S Y} ahead n (call : list Z -> S -> nat -> res S Y) spos V I s0 (Q P : Y -> Prop) :
  (n <= length V)%nat -> body_laws ahead n call spos V I Q -> I s0 0%nat -> (forall x q, call V s0 (length V) = RDone x q -> P x) ->
  let I' := fun s a => I s a /\ forall x q, call V s (length V) = RDone x q -> call V s0 (length V) = RDone x q in
  body_laws ahead n call spos V I' P /\ I' s0 0%nat.
Proof.
  intros HN L I0 HP I'. assert (SN : stable (call V) I (length V)) by (apply (bl_stable _ _ _ _ _ _ _ L); lia).
  assert (K : forall s a b s', I' s a -> (a <= b <= length V)%nat -> call V s b = RMore s' -> I' s' b).
  { intros s a b s' [Hi Hs] Hab E. pose proof (SN s a Hi b ltac:(lia)) as R. rewrite E in R. destruct R as [R1 R2]. split; [exact R1|].
    intros x q H. apply Hs, R2, H. }
  split; [constructor|].
  - intros N H s a Hi b Hab. pose proof (bl_stable _ _ _ _ _ _ _ L N H s a (proj1 Hi) b Hab) as R.
    destruct (call V s b) as [x q| |s'] eqn:E; [exact R|exact R|]. split; [|apply R]. eapply K; [exact Hi| |exact E]. lia.
  - intros s a b x q [Hi _]. apply (bl_pos _ _ _ _ _ _ _ L _ _ _ _ _ Hi).
  - intros s a b s' Hi Hab E. pose proof (bl_more _ _ _ _ _ _ _ L s a b s' (proj1 Hi) Hab E) as (_ & R). split; [eapply K; eassumption|exact R].
  - intros s a b x q [Hi Hs] Hab E. pose proof (SN s a Hi b ltac:(lia)) as R. rewrite E in R. eapply HP, Hs, R.
  - intros s a Hi b N Hab HN'. pose proof (bl_steady _ _ _ _ _ _ _ L s a (proj1 Hi) b N Hab HN') as R.
    destruct (call V s b) as [x q| |s'] eqn:E; [exact R|exact R|]. split; [|apply R]. eapply K; [exact Hi| |exact E]. lia.
  - split; [exact I0|]. auto.
Qed.

(** Bodies inside the state of the whole decoder. *)
Lemma laws_lift {S Y T X} ahead n (call : list Z -> S -> nat -> res S Y) spos V I (P : Y -> Prop)
    (inj : S -> T) (post : Y -> X) (tcall : list Z -> T -> nat -> res T X) tpos (Q : X -> Prop) :
  (forall s a, tcall V (inj s) a = lift_res inj post (call V s a)) -> (forall s, tpos (inj s) = spos s) -> (forall y, P y -> Q (post y)) ->
  body_laws ahead n call spos V I P ->
  body_laws ahead n tcall tpos V (fun t a => exists s, t = inj s /\ I s a) Q.
Proof.
  intros HC HS HP L. constructor.
  - intros N H t a (s & -> & Hi) b Hab. rewrite !HC. pose proof (bl_stable _ _ _ _ _ _ _ L N H s a Hi b Hab) as R.
    destruct (call V s b) as [x q| |s']; cbn [lift_res].
    + rewrite R. reflexivity.
    + intros x q E. destruct (call V s N) as [y q'| |] eqn:E2; cbn [lift_res] in E; try discriminate. exact (R _ _ eq_refl).
    + destruct R as [R1 R2]. split; [exists s'; auto|]. intros x q. rewrite HC. split; intros E.
      * destruct (call V s' N) as [y q'| |] eqn:E2; cbn [lift_res] in E; try discriminate. injection E as <- <-. rewrite (proj1 (R2 _ _) eq_refl). reflexivity.
      * destruct (call V s N) as [y q'| |] eqn:E2; cbn [lift_res] in E; try discriminate. injection E as <- <-. rewrite (proj2 (R2 _ _) eq_refl). reflexivity.
  - intros t a b x q (s & -> & Hi) Hab E. rewrite HC in E. destruct (call V s b) as [y q'| |] eqn:E2; cbn [lift_res] in E; try discriminate. injection E as <- <-.
    rewrite HS. eapply (bl_pos _ _ _ _ _ _ _ L); eassumption.
  - intros t a b t' (s & -> & Hi) Hab E. rewrite HC in E. destruct (call V s b) as [y q'| |s'] eqn:E2; cbn [lift_res] in E; try discriminate. injection E as <-.
    rewrite !HS. destruct (bl_more _ _ _ _ _ _ _ L s a b s' Hi Hab E2) as (R1 & R2). split; [exists s'; auto|exact R2].
  - intros t a b x q (s & -> & Hi) Hab E. rewrite HC in E. destruct (call V s b) as [y q'| |] eqn:E2; cbn [lift_res] in E; try discriminate. injection E as <- <-.
    apply HP. eapply (bl_out _ _ _ _ _ _ _ L); eassumption.
  - intros t a (s & -> & Hi) b N Hab HN. rewrite !HC. pose proof (bl_steady _ _ _ _ _ _ _ L s a Hi b N Hab HN) as R.
    destruct (call V s b) as [x q| |s']; cbn [lift_res].
    + rewrite R. reflexivity.
    + rewrite R. reflexivity.
    + destruct R as [R1 R2]. split; [exists s'; auto|]. rewrite HC.
      destruct (call V s' N), (call V s N); cbn [verd lift_res] in *; try discriminate; try reflexivity. injection R2 as -> ->. reflexivity.
Qed.

(** * Bit sections *)
Definition sinv {T} (n : nat) (V : list Z) (s : prog T * breader * nat) (a : nat) : Prop :=
  let '(p, b, pos) := s in binv (firstn n V) p b pos (Nat.min a n) /\ nle p.

Lemma min_mono a b n : (a <= b)%nat -> (Nat.min a n <= Nat.min b n)%nat.
Proof. lia. Qed.
Lemma section_pos_low {T} lenient sec (p : prog T) b pos a x c : section_call lenient sec p b pos a = SDone x c -> (pos <= c)%nat.
Proof.
  intros E. unfold section_call in E. destruct (BitModel.mrun p _) as [y b'| |]; [|discriminate|].
  - destruct (br_suspend b') as [b'' un]. destruct (br_is_healthy _) as [h ?]. destruct h; [|discriminate]. injection E as _ <-. lia.
  - destruct (br_suspend _) as [? ?]. destruct (_ <=? _)%nat; discriminate.
Qed.

Lemma section_more {T} lenient n V (p : prog T) b pos a a' q b' pos' : bytes V -> (n <= length V)%nat -> (a <= a')%nat -> binv (firstn n V) p b pos (Nat.min a n) -> nle p ->
  section_call lenient (firstn n V) p b pos (Nat.min a' n) = SMore q b' pos' ->
  binv (firstn n V) q b' pos' (Nat.min a' n) /\ nle q /\ (pos <= pos' <= a')%nat /\ (a' < pos' + 600)%nat /\ (a' < n)%nat.
Proof.
  intros Hb HV Ha Hi Hn E. assert (Ln : length (firstn n V) = n) by (rewrite firstn_length; lia).
  pose proof (section_stable lenient (firstn n V) p b pos (Nat.min a n) (Nat.min a' n) (firstn_bytes n V Hb) Hi ltac:(lia)) as S. rewrite E in S. destruct S as (S1 & S2 & _).
  destruct Hi as (A & k & HR & Hp & Hk & Hkn).
  destruct (section_call_short lenient (firstn n V) p b pos (Nat.min a' n) A k q b' pos' (firstn_bytes n V Hb) HR ltac:(lia) ltac:(lia) Hk ltac:(lia) E) as (m & q' & -> & P1 & P2).
  pose proof (section_call_nle _ _ _ _ _ _ _ _ _ Hn E) as N. split; [exact S1|]. split; [exact N|]. cbn [nle] in N. destruct N as [N _].
  destruct S1 as (? & ? & _ & P3 & _). lia.
Qed.

Lemma scall_laws {T} lenient n V : bytes V -> (n <= length V)%nat ->
  body_laws 600 n (@scall T lenient n) snd V (sinv n V) (fun _ => True).
Proof.
  intros Hb HV. assert (Ln : length (firstn n V) = n) by (rewrite firstn_length; lia). constructor.
  - intros N HN [[p b] pos] a [Hi Hn] a' Ha. unfold scall. rewrite (Nat.min_r N n) by lia.
    pose proof (section_stable lenient (firstn n V) p b pos (Nat.min a n) (Nat.min a' n) (firstn_bytes n V Hb) Hi ltac:(lia)) as S. rewrite Ln in S.
    destruct (section_call lenient (firstn n V) p b pos (Nat.min a' n)) as [x c| |q b' pos'] eqn:E.
    + rewrite <- S. reflexivity.
    + rewrite <- S. intros; discriminate.
    + destruct S as (S1 & S2 & S3). rewrite S3. split; [split; [exact S1|eapply section_call_nle; eassumption]|]. reflexivity.
  - intros [[p b] pos] a a' x q [Hi Hn] Ha E. unfold scall in E. destruct (section_call lenient _ _ _ _ _) as [y c| |] eqn:Es; try discriminate. injection E as <- <-. cbn [snd].
    pose proof (section_pos_low _ _ _ _ _ _ _ _ Es). destruct Hi as (? & ? & _ & Hp & _). pose proof (section_call_pos _ _ _ _ _ _ _ _ (Nat.le_trans _ _ _ Hp (min_mono a a' n ltac:(lia))) Es). lia.
  - intros [[p b] pos] a a' s' [Hi Hn] Ha E. unfold scall in E. destruct (section_call lenient _ _ _ _ _) as [y c| |q b' pos'] eqn:Es; try discriminate. injection E as <-. cbn [snd sinv].
    destruct (section_more lenient n V p b pos a a' q b' pos' Hb HV ltac:(lia) Hi Hn Es) as (R1 & R2 & R3 & R4 & _). auto.
  - auto.
  - intros [[p b] pos] a [Hi Hn] a' N Ha HN. unfold scall.
    pose proof (section_steady lenient (firstn n V) p b pos (Nat.min a n) (Nat.min a' n) (Nat.min N n) (firstn_bytes n V Hb) Hi ltac:(lia) ltac:(lia)) as S.
    destruct (section_call lenient (firstn n V) p b pos (Nat.min a' n)) as [x c| |q b' pos'] eqn:E.
    + rewrite S. reflexivity.
    + rewrite S. reflexivity.
    + destruct S as (S1 & S2 & S3). split; [split; [exact S1|eapply section_call_nle; eassumption]|].
      destruct (section_call lenient (firstn n V) q b' pos' (Nat.min N n)), (section_call lenient (firstn n V) p b pos (Nat.min N n)); cbn [sverd verd] in *; try discriminate; try reflexivity.
      injection S3 as -> ->. reflexivity.
Qed.

Lemma scall_full {T} lenient n V (p : prog T) N : bytes V -> (n <= length V)%nat -> (n <= N)%nat -> bok 0 p ->
  scall lenient n V (p, br_init, 0%nat) N = match asection (negb lenient) p (firstn n V) with Some (x, c) => RDone x c | None => RFail end.
Proof.
  intros Hb HV HN Hk. unfold scall. rewrite Nat.min_r by lia. assert (Ln : length (firstn n V) = n) by (rewrite firstn_length; lia).
  pose proof (section_full_asection lenient (firstn n V) p (firstn_bytes n V Hb) Hk) as E. rewrite Ln in E. rewrite E. destruct (asection _ _ _) as [[x c]|]; reflexivity.
Qed.

Lemma scall_body {T} lenient n V (p : prog T) (P : T -> Prop) : bytes V -> (n <= length V)%nat -> bok 0 p -> nle p -> pall P p ->
  exists I, body_laws 600 n (@scall T lenient n) snd V I P /\ I (p, br_init, 0%nat) 0%nat.
Proof.
  intros Hb HV Hk Hn HP. eexists. apply (laws_out 600 n _ snd V _ (p, br_init, 0%nat) _ P HV (scall_laws lenient n V Hb HV)).
  - cbn [sinv]. split; [|exact Hn]. rewrite Nat.min_0_l. apply binv_init, Hk.
  - intros x q E. rewrite (scall_full lenient n V p (length V) Hb HV HV Hk) in E. unfold asection in E. destruct (arun _ _ _) as [[y r]|] eqn:A; [|discriminate].
    destruct (forallb _ _); [|discriminate]. injection E as <- _. eapply arun_pall; [exact HP|exact A].
Qed.

(** * Internals *)
Definition jinv' (V : list Z) (n : nat) (s : jstate) (a : nat) : Prop :=
  (jinv V n s a /\ jokb n s) /\ match s with JBits p _ _ => nle p | _ => True end.

Lemma jbytes_pos V n x p pos a : bytes V -> (a <= length V)%nat -> (pos <= a)%nat ->
  match jbytes V n x p pos a with
  | RDone _ q => (pos <= q <= a)%nat
  | RFail => True
  | RMore s => match s with JBytes _ _ pos' => (pos <= pos' <= a)%nat /\ (a < pos' + 9)%nat | _ => False end
  end.
Proof.
  intros Hb Ha Hp. unfold jbytes. pose proof (brun_pos V (Some n) a Hb Ha p pos Hp) as P. pose proof (brun_ahead V (Some n) a Hb Ha p pos Hp) as H.
  destruct (brun V (Some n) p pos a) as [ds q| |[p' pos']]; auto. destruct (_ =? _)%nat; auto.
Qed.

Lemma jcall_next V n s a b s' : bytes V -> (n <= length V)%nat -> jinv' V n s a -> (a <= b <= length V)%nat -> jcall V n s b = RMore s' -> jinv' V n s' b.
Proof.
  intros Hb HV [Hi Hn] Hab E. pose proof (jcall_steady V n Hb HV s a Hi b b ltac:(lia) ltac:(lia)) as R. rewrite E in R. split; [apply R|].
  destruct s as [p br pos|x p pos]; cbn [jcall] in E.
  - destruct (section_call false _ p br pos _) as [y c| |q b' pos'] eqn:Es; [|discriminate|].
    + unfold jbytes in E. destruct (brun _ _ _ _ _) as [? ?| |[? ?]]; [destruct (_ =? _)%nat; discriminate|discriminate|]. injection E as <-. exact Logic.I.
    + injection E as <-. eapply section_call_nle; eassumption.
  - unfold jbytes in E. destruct (brun _ _ _ _ _) as [? ?| |[? ?]]; [destruct (_ =? _)%nat; discriminate|discriminate|]. injection E as <-. exact Logic.I.
Qed.

Lemma jcall_laws n V : bytes V -> (n <= length V)%nat -> body_laws 600 n (fun V => jcall V n) j_pos V (jinv' V n) (fun _ => True).
Proof.
  intros Hb HV. constructor.
  - intros N HN s a Hi b Hab. pose proof (jcall_stable V n N Hb ltac:(lia) ltac:(lia) s a (proj1 (proj1 Hi)) b Hab) as R. destruct (jcall V n s b) as [x q| |s'] eqn:E; [exact R|exact R|].
    destruct R as [R1 R2]. split; [|exact R2]. eapply jcall_next; [exact Hb|exact HV|exact Hi| |exact E]. lia.
  - intros s a b x q [[Hi Ho] Hn] Hab E. destruct s as [p br pos|y p pos]; cbn [jcall jinv j_pos] in *.
    + destruct (section_call false _ p br pos _) as [y c| |] eqn:Es; try discriminate. destruct Hi as (? & ? & _ & Hp & _).
      pose proof (section_pos_low _ _ _ _ _ _ _ _ Es). pose proof (section_call_pos _ _ _ _ _ _ _ _ (Nat.le_trans _ _ _ Hp (min_mono a b n ltac:(lia))) Es).
      pose proof (jbytes_pos V n y (read_inter (in_markers y) n) c b Hb ltac:(lia) ltac:(lia)) as R. rewrite E in R. lia.
    + pose proof (jbytes_pos V n y p pos b Hb ltac:(lia) ltac:(lia)) as R. rewrite E in R. lia.
  - intros s a b s' Hi0 Hab E. pose proof (jcall_next V n s a b s' Hb HV Hi0 Hab E) as J. split; [exact J|]. destruct Hi0 as [[Hi Ho] Hn].
    destruct s as [p br pos|y p pos]; cbn [jcall jinv j_pos] in *.
    + destruct (section_call false _ p br pos _) as [y c| |q b' pos'] eqn:Es; try discriminate.
      * destruct Hi as (? & ? & _ & Hp & _). pose proof (section_pos_low _ _ _ _ _ _ _ _ Es). pose proof (section_call_pos _ _ _ _ _ _ _ _ (Nat.le_trans _ _ _ Hp (min_mono a b n ltac:(lia))) Es).
        pose proof (jbytes_pos V n y (read_inter (in_markers y) n) c b Hb ltac:(lia) ltac:(lia)) as R. rewrite E in R. destruct s' as [|y' p' pos']; [destruct R|]. cbn [j_pos] in *. lia.
      * injection E as <-. destruct (section_more false n V p br pos a b q b' pos' Hb HV ltac:(lia) Hi Hn Es) as (R1 & R2 & R3 & R4 & _). cbn [j_pos]. lia.
    + pose proof (jbytes_pos V n y p pos b Hb ltac:(lia) ltac:(lia)) as R. rewrite E in R. destruct s' as [|y' p' pos']; [destruct R|]. cbn [j_pos] in *. lia.
  - auto.
  - intros s a Hi b N Hab HN. pose proof (jcall_steady V n Hb HV s a (proj1 Hi) b N Hab HN) as R. destruct (jcall V n s b) as [x q| |s'] eqn:E; [exact R|exact R|].
    destruct R as [R1 R2]. split; [|exact R2]. eapply jcall_next; [exact Hb|exact HV|exact Hi| |exact E]. lia.
Qed.

(** * Metadata *)
Lemma bro_run_used B : forall l st o u, bro_run B st l = BrEnd o u -> (u <= length l)%nat.
Proof.
  induction l as [|x l IH]; intros st o u E; cbn [bro_run] in E; [discriminate|].
  destruct (b_step B st x) as [[o1 [st'|]]|]; try discriminate.
  - destruct (bro_run B st' l) as [|o2 u2|] eqn:E2; try discriminate. injection E as _ <-. apply IH in E2. cbn [length]. lia.
  - injection E as _ <-. cbn [length]. lia.
Qed.
Lemma md_brotli_pos B V n st size out ms pos a : (pos <= n)%nat -> (pos <= a <= length V)%nat ->
  match @md_brotli B V n st size out ms pos a with
  | RDone _ q => q = n /\ (n <= a)%nat
  | RFail => True
  | RMore s => md_pos s = a /\ (a < n)%nat
  end.
Proof.
  intros Hn Hp. unfold md_brotli. destruct (bro_run B st _) as [|o u|o st'] eqn:R; [exact Logic.I| |].
  - apply bro_run_used in R. unfold slice in R. rewrite firstn_length, skipn_length in R.
    destruct (_ <? _); [exact Logic.I|]. destruct (process_metadata ms o) as [ms'| |]; auto.
    destruct (Nat.eqb_spec (pos + u) n); cbn [negb]; auto. destruct (negb _); auto. destruct (negb _); auto. lia.
  - destruct (_ <? _); [exact Logic.I|]. destruct (process_metadata ms o) as [ms'| |]; auto. destruct (Nat.leb_spec n a); auto. cbn [md_pos]. lia.
Qed.
Lemma md_length_pos B V n a : bytes V -> (a <= length V)%nat ->
  match @md_length B V n a with
  | RDone _ q => q = n /\ (n <= a)%nat
  | RFail => True
  | RMore s => (md_pos s <= a)%nat /\ (a < md_pos s + 9)%nat
  end.
Proof.
  intros Hb Ha. unfold md_length. destruct (decode_base128 (slice V 0 a)) as [v rest| |] eqn:E; auto.
  - destruct (decode_slice_ok V 0 a v rest Hb ltac:(lia) E) as (_ & H & _). cbv zeta.
    destruct (Nat.ltb_spec n (a - length rest)); auto. destruct (n =? _)%nat; auto.
    pose proof (md_brotli_pos B V n (b_start B) v 0 m_init (a - length rest) a ltac:(lia) ltac:(lia)) as P.
    destruct (md_brotli _ _ _ _ _ _ _ _) as [x q| |s]; auto. lia.
  - apply decode_base128_need_short in E. rewrite slice_length in E by lia. cbn [md_pos]. lia.
Qed.

Lemma mdcall_laws B n V : bytes V -> (n <= length V)%nat -> body_laws 600 n (fun V => mdcall B V n) md_pos V (mdinv n) (fun _ => True).
Proof.
  intros Hb HV. constructor.
  - intros N HN. apply mdcall_stable; assumption.
  - intros s a b x q Hi Hab E. destruct s as [| |st size out ms pos]; cbn [mdcall mdinv md_pos] in *.
    + destruct (Nat.eqb_spec n 0); [injection E as _ <-; lia|]. destruct (Nat.eqb_spec n 1).
      * destruct (Nat.eqb_spec b 0); [discriminate|]. destruct (process_metadata _ _) as [ms| |]; try discriminate. destruct (can_finish ms); [|discriminate]. injection E as _ <-. lia.
      * pose proof (md_length_pos B V n b Hb ltac:(lia)) as P. rewrite E in P. lia.
    + pose proof (md_length_pos B V n b Hb ltac:(lia)) as P. rewrite E in P. lia.
    + pose proof (md_brotli_pos B V n st size out ms pos b ltac:(lia) ltac:(lia)) as P. rewrite E in P. lia.
  - intros s a b s' Hi Hab E. pose proof (mdcall_stable B V n (length V) Hb ltac:(lia) s a Hi b ltac:(lia)) as R. rewrite E in R. split; [apply R|]. clear R.
    destruct s as [| |st size out ms pos]; cbn [mdcall mdinv md_pos] in *.
    + destruct (Nat.eqb_spec n 0); [discriminate|]. destruct (Nat.eqb_spec n 1).
      * destruct (Nat.eqb_spec b 0).
        -- injection E as <-. cbn [md_pos]. lia.
        -- destruct (process_metadata _ _) as [ms| |]; try discriminate. destruct (can_finish ms); discriminate.
      * pose proof (md_length_pos B V n b Hb ltac:(lia)) as P. rewrite E in P. lia.
    + pose proof (md_length_pos B V n b Hb ltac:(lia)) as P. rewrite E in P. lia.
    + pose proof (md_brotli_pos B V n st size out ms pos b ltac:(lia) ltac:(lia)) as P. rewrite E in P. lia.
  - auto.
  - apply mdcall_steady; assumption.
Qed.
