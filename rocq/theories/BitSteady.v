(** Whether a bit section asks for more input depends only on how much of it is visible,
    not on how often it has been called before. *)
From Verif Require Import Base BitModel BitProofs Stream.

(** Run on the visible bits [L], does the program reach a point where it asks for more? *)
Fixpoint stuck {A} (p : prog A) (L : list bool) : bool :=
  match p with
  | Ret _ => false
  | Fail => false
  | Take n f k => stuck (k (peek n L)) (skipn (f (peek n L)) L)
  | Need n q => if (length L <? n)%nat then true else stuck q L
  | Chk q => stuck q L
  end.

Lemma stuck_mono {A} (p : prog A) : forall k L W, bok k p -> (k <= length L)%nat ->
  stuck p L = false -> stuck p (L ++ W) = false.
Proof.
  induction p as [a| |n f kk IH|n p IH|p IH]; intros k L W Hb Hk E; cbn [stuck bok] in *; auto.
  - destruct Hb as (Hn & Hn24 & Hb). rewrite peek_app by lia.
    destruct (Hb (peek n L) (peek_range n L)) as [Hf Hb']. rewrite skipn_app_le by lia.
    eapply IH; [exact Hb'| |exact E]. rewrite skipn_length. lia.
  - destruct (Nat.ltb_spec (length L) n); [discriminate|].
    destruct (Nat.ltb_spec (length (L ++ W)) n) as [X|X]; [rewrite app_length in X; lia|].
    eapply IH; [exact Hb| |exact E]. lia.
  - eapply IH; eassumption.
Qed.

Lemma mrun_stuck {A} (p : prog A) : forall lead chunk b L c real k U (strict : bool),
  R lead chunk b L c real -> br_opt b = false -> br_debt b = O ->
  bok k p -> (k <= length L)%nat ->
  match mrun p b with
  | Done a b' => stuck p L = false
  | Failed => stuck p L = false
  | More q b' => stuck p L = true /\ exists L' c' real' k', R lead chunk b' L' c' real' /\
      arun strict p (L ++ U) = arun strict q (L' ++ U) /\ bok k' q /\ (k' <= length L')%nat /\
      forall W, stuck p (L ++ W) = stuck q (L' ++ W)
  end.
Proof.
  induction p as [a| |n f kk IH|n p IH|p IH]; intros lead chunk b L c real k U strict H Ho Hd Hb Hk; cbn [mrun arun bok stuck] in *.
  - reflexivity.
  - reflexivity.
  - destruct Hb as (Hn & Hn24 & Hb).
    destruct (load_R _ _ _ _ _ _ n H Hn24) as (r1 & H1 & N1 & O1 & D1).
    specialize (D1 ltac:(lia) Hd).
    rewrite (get_R _ _ _ _ _ _ n H1 N1). rewrite peek_app by lia.
    destruct (Hb (peek n L) (peek_range n L)) as [Hf Hb'].
    assert (E : (f (peek n L) <=? length (L ++ U))%nat = true) by (apply Nat.leb_le; rewrite app_length; lia).
    rewrite E. rewrite skipn_app_le by lia.
    assert (Hx := IH (peek n L) lead chunk (br_drop (f (peek n L)) (br_load n b)) (skipn (f (peek n L)) L) (c + f (peek n L))%nat (r1 - f (peek n L))%nat (k - f (peek n L))%nat U strict).
    refine (_ (Hx _ _ _ _ _)).
    + destruct (mrun (kk (peek n L)) _) as [a b'| |q b']; auto.
      intros (S1 & L' & c' & real' & k' & HR & Ea & Hbk & Hkk & HW). split; [exact S1|].
      exists L', c', real', k'. repeat (split; [assumption|]). intros W.
      rewrite peek_app by lia. rewrite skipn_app_le by lia. apply HW.
    + eapply drop_R; [exact H1|exact N1|exact Hf|lia].
    + cbn [br_drop br_opt]. congruence.
    + cbn [br_drop br_debt]. exact D1.
    + exact Hb'.
    + rewrite skipn_length. lia.
  - rewrite (can_read_R _ _ _ _ _ _ n H Ho Hd).
    destruct (Nat.leb_spec n (length L)) as [Hle|Hgt].
    + assert (E : (length (L ++ U) <? n)%nat = false) by (apply Nat.ltb_ge; rewrite app_length; lia).
      rewrite E, andb_false_r. assert (E' : (length L <? n)%nat = false) by (apply Nat.ltb_ge; lia). rewrite E'.
      pose proof (IH lead chunk b L c real _ U strict H Ho Hd Hb ltac:(lia)) as Hx.
      destruct (mrun p b) as [a b'| |q b']; auto.
      destruct Hx as (S1 & L' & c' & real' & k' & HR & Ea & Hbk & Hkk & HW). split; [exact S1|].
      exists L', c', real', k'. repeat (split; [assumption|]). intros W.
      assert (EW : (length (L ++ W) <? n)%nat = false) by (apply Nat.ltb_ge; rewrite app_length; lia). rewrite EW. apply HW.
    + assert (E' : (length L <? n)%nat = true) by (apply Nat.ltb_lt; lia). rewrite E'. split; [reflexivity|].
      exists L, c, real, k. split; [exact H|]. split; [reflexivity|]. split; [exact Hb|]. split; [exact Hk|]. reflexivity.
  - unfold br_is_healthy. destruct (unload_R _ _ _ _ _ _ H) as (H1 & D1 & O1).
    rewrite D1, (R_healthy _ _ _ _ _ _ H1). cbn [Nat.eqb andb].
    eapply IH; [exact H1|congruence|exact D1|exact Hb|exact Hk].
Qed.

(** The visible bits. *)
Definition vis (b : breader) (pos : nat) (A : list bool) (av : nat) : list bool := firstn (br_nbits b + 8 * (av - pos)) A.

Lemma vis_more b pos A a n : (pos <= a <= n)%nat -> vis b pos A n = vis b pos A a ++ firstn (8 * (n - a)) (skipn (br_nbits b + 8 * (a - pos)) A).
Proof. intros H. unfold vis. replace (br_nbits b + 8 * (n - pos))%nat with ((br_nbits b + 8 * (a - pos)) + 8 * (n - a))%nat by lia. apply firstn_add. Qed.

Lemma Rest_length sec b pos A : Rest sec b pos A -> length A = (br_nbits b + 8 * (length sec - pos))%nat.
Proof.
  intros H. assert (E := f_equal (@length bool) (Rest_s _ _ _ _ H)). pose proof (Rest_a _ _ _ _ H). pose proof (Rest_p _ _ _ _ H).
  rewrite skipn_length, bits_of_bytes_length, skipn_length in E. lia.
Qed.

Lemma section_call_char {T} (lenient : bool) sec (p : prog T) b pos av A k :
  bytes sec -> Rest sec b pos A -> (pos <= av)%nat -> (av <= length sec)%nat ->
  bok k p -> (k <= br_nbits b + 8 * (av - pos))%nat ->
  match section_call lenient sec p b pos av with
  | SMore q b' pos' => (av < length sec)%nat /\ stuck p (vis b pos A av) = true /\
       exists A' k', Rest sec b' pos' A' /\ (pos' <= av)%nat /\
       bok k' q /\ (k' <= br_nbits b' + 8 * (av - pos'))%nat /\
       averdict lenient sec p A = averdict lenient sec q A' /\
       forall M, (av <= M <= length sec)%nat -> stuck p (vis b pos A M) = stuck q (vis b' pos' A' M)
  | x => x = averdict lenient sec p A /\ ((av < length sec)%nat -> stuck p (vis b pos A av) = false)
  end.
Proof.
  intros Hs HR Hpa Has Hb Hk.
  pose proof (section_call_spec lenient sec p b pos av A k Hs HR Hpa Has Hb Hk) as Spec.
  pose proof (Rest_length _ _ _ _ HR) as HlA.
  unfold section_call in *.
  set (chunk := firstn (av - pos) (skipn pos sec)) in *.
  assert (Hcl : length chunk = (av - pos)%nat) by (unfold chunk; rewrite firstn_length, skipn_length; lia).
  set (lead := firstn (br_nbits b) A).
  set (U := bits_of_bytes (skipn (pos + length chunk) sec)).
  assert (HA : A = (lead ++ bits_of_bytes chunk) ++ U).
  { rewrite <- (firstn_skipn (br_nbits b) A) at 1. fold lead. rewrite (Rest_s _ _ _ _ HR).
    rewrite <- app_assoc. f_equal. unfold U. rewrite <- bits_of_bytes_app. f_equal.
    rewrite <- skipn_skipn'. symmetry. apply firstn_min_skipn. }
  assert (Hll : length lead = br_nbits b) by (unfold lead; rewrite firstn_length; pose proof (Rest_a _ _ _ _ HR); lia).
  pose proof (resume_R sec b pos A av (lenient && (length sec <=? av)%nat) Hs HR Hpa) as HR0.
  fold chunk in HR0. cbv zeta in HR0. fold lead in HR0.
  set (b0 := br_set_optimistic (br_resume b chunk) (lenient && (length sec <=? av)%nat)) in *.
  assert (HlL : length (lead ++ bits_of_bytes chunk) = (br_nbits b + 8 * (av - pos))%nat).
  { rewrite app_length, bits_of_bytes_length. lia. }
  assert (HV : forall M, (av <= M)%nat -> vis b pos A M = (lead ++ bits_of_bytes chunk) ++ firstn (8 * (M - av)) U).
  { intros M HM. unfold vis. rewrite HA. rewrite firstn_app.
    rewrite firstn_all2 by lia. f_equal. f_equal. lia. }
  destruct (Nat.leb_spec (length sec) av) as [Ea|Ea].
  - (* everything is visible *)
    destruct (mrun p b0) as [a b'| |q b'].
    + destruct (br_suspend b') as [b'' unused]. destruct (br_is_healthy (br_finish b'')) as [h bb].
      destruct h; (split; [exact Spec|lia]).
    + split; [exact Spec|lia].
    + destruct (br_suspend b') as [b'' unused]. split; [exact Spec|lia].
  - assert (Hopt : br_opt b0 = false) by (unfold b0; cbn; rewrite andb_false_r; reflexivity).
    assert (Hdeb : br_debt b0 = O) by apply (Rest_d _ _ _ _ HR).
    pose proof (mrun_stuck p _ _ _ _ _ _ k U (negb lenient) HR0 Hopt Hdeb Hb) as Hm.
    specialize (Hm ltac:(lia)). rewrite <- HA in Hm.
    assert (HVa : vis b pos A av = lead ++ bits_of_bytes chunk).
    { rewrite HV by lia. rewrite Nat.sub_diag, Nat.mul_0_r. cbn [firstn]. apply app_nil_r. }
    rewrite HVa.
    destruct (mrun p b0) as [a b'| |q b'].
    + destruct (br_suspend b') as [b'' unused]. destruct (br_is_healthy (br_finish b'')) as [h bb].
      destruct h; (split; [exact Spec|intros _; exact Hm]).
    + split; [exact Spec|intros _; exact Hm].
    + destruct Hm as (Hst & L' & c' & real' & k' & HR' & Em & Hb' & Hk' & HW).
      pose proof (suspend_Rest sec b pos A av b' L' c' real' HR Hpa HR') as Hsu.
      fold chunk in Hsu. cbv zeta in Hsu. fold U in Hsu.
      destruct (br_suspend b') as [b'' unused].
      destruct Hsu as (S1 & S2 & S3 & S4).
      split; [lia|]. split; [exact Hst|].
      pose proof (Rest_length _ _ _ _ S1) as HlA'. pose proof (Rest_p _ _ _ _ S1).
      assert (HlU : length U = (8 * (length sec - av))%nat) by (unfold U; rewrite bits_of_bytes_length, skipn_length; lia).
      rewrite app_length in HlA'.
      set (pos' := (pos + (length chunk - unused))%nat) in *.
      exists (L' ++ U), k'. split; [exact S1|]. split; [lia|]. split; [exact Hb'|]. split; [lia|]. split.
      { unfold averdict. rewrite Em. reflexivity. }
      intros M HM. rewrite HV by lia. rewrite HW. f_equal. unfold vis. rewrite firstn_app.
      rewrite (firstn_all2 (n := br_nbits b'' + 8 * (M - pos'))%nat L') by lia. f_equal. f_equal. lia.
Qed.

(** What a call reports, without the state. *)
Definition sverd {T} (r : sec_result T) : option (option (T * nat)) :=
  match r with SDone x c => Some (Some (x, c)) | SFail => Some None | SMore _ _ _ => None end.

Lemma section_steady {T} lenient sec (p : prog T) b pos a a' N : bytes sec -> binv sec p b pos a ->
  (a <= a' <= N)%nat -> (N <= length sec)%nat ->
  match section_call lenient sec p b pos a' with
  | SMore q b' pos' => binv sec q b' pos' a' /\ (a' < length sec)%nat /\
      sverd (section_call lenient sec q b' pos' N) = sverd (section_call lenient sec p b pos N)
  | x => section_call lenient sec p b pos N = x
  end.
Proof.
  intros Hb (A & k & HR & Hp & Hk & Hn) Ha HN.
  pose proof (section_call_char lenient sec p b pos a' A k Hb HR ltac:(lia) ltac:(lia) Hk ltac:(lia)) as S.
  pose proof (section_call_char lenient sec p b pos N A k Hb HR ltac:(lia) ltac:(lia) Hk ltac:(lia)) as SN.
  assert (Mono : (a' < length sec -> stuck p (vis b pos A a') = false)%nat -> (N < length sec)%nat -> stuck p (vis b pos A N) = false).
  { intros H1 H2. rewrite (vis_more b pos A a' N) by lia. apply (stuck_mono p k); [exact Hk| |apply H1; lia].
    unfold vis. rewrite firstn_length, (Rest_length _ _ _ _ HR). lia. }
  destruct (section_call lenient sec p b pos a') as [x c| |q b' pos'].
  - destruct S as [-> S2]. destruct (section_call lenient sec p b pos N) as [y d| |q' b2 p2]; try apply SN.
    destruct SN as (L1 & L2 & _). rewrite Mono in L2 by (assumption || lia). discriminate.
  - destruct S as [-> S2]. destruct (section_call lenient sec p b pos N) as [y d| |q' b2 p2]; try apply SN.
    destruct SN as (L1 & L2 & _). rewrite Mono in L2 by (assumption || lia). discriminate.
  - destruct S as (L1 & L2 & A' & k' & R' & P' & K' & N' & V' & W').
    split; [exists A', k'; exact (conj R' (conj P' (conj K' N')))|]. split; [exact L1|].
    pose proof (section_call_char lenient sec q b' pos' N A' k' Hb R' ltac:(lia) ltac:(lia) K' ltac:(lia)) as SQ.
    rewrite <- V' in SQ. specialize (W' N ltac:(lia)).
    assert (X : forall n : nat, (n < length sec)%nat \/ (length sec <= n)%nat) by (intros; lia).
    destruct (section_call lenient sec p b pos N) as [y d| |q2 b2 p2]; destruct (section_call lenient sec q b' pos' N) as [z e| |q3 b3 p3]; cbn [sverd]; try reflexivity.
    + destruct SN as [E0 _], SQ as [E _]. rewrite <- E in E0. injection E0 as -> ->. reflexivity.
    + destruct SN as [E _], SQ as [E2 _]. rewrite <- E2 in E. discriminate.
    + destruct SN as [E E3], SQ as (Q1 & Q2 & _). rewrite <- W' in Q2. rewrite E3 in Q2 by lia. discriminate.
    + destruct SN as [E _], SQ as [E2 _]. rewrite <- E2 in E. discriminate.
    + destruct SN as [E E3], SQ as (Q1 & Q2 & _). rewrite <- W' in Q2. rewrite E3 in Q2 by lia. discriminate.
    + destruct SN as (Q1 & Q2 & _), SQ as [E E3]. rewrite W' in Q2. rewrite E3 in Q2 by lia. discriminate.
    + destruct SN as (Q1 & Q2 & _), SQ as [E E3]. rewrite W' in Q2. rewrite E3 in Q2 by lia. discriminate.
Qed.

(** * The same for all resumable decoders *)

(** What a call reports, without the state. *)
Definition verd {S X} (r : res S X) : option (option (X * nat)) :=
  match r with RDone x q => Some (Some (x, q)) | RFail => Some None | RMore _ => None end.

(** A verdict reached with [b] bytes visible is the verdict with any larger number [N], and
    suspending changes no later verdict: not even whether more input is asked for. *)
Definition steady {S X} (call : S -> nat -> res S X) (I : S -> nat -> Prop) (L : nat) : Prop :=
  forall s a, I s a -> forall b N, (a <= b <= N)%nat -> (N <= L)%nat ->
    match call s b with
    | RDone x q => call s N = RDone x q
    | RFail => call s N = RFail
    | RMore s' => I s' b /\ verd (call s' N) = verd (call s N)
    end.

Lemma verd_fail {S X} (r : res S X) : verd r = Some None -> r = RFail.
Proof. destruct r; cbn; intros E; try discriminate. reflexivity. Qed.
Lemma verd_done {S X} (r : res S X) x q : verd r = Some (Some (x, q)) -> r = RDone x q.
Proof. destruct r; cbn; intros E; try discriminate. injection E as -> ->. reflexivity. Qed.

(** Byte parsers without a boundary. *)
Lemma brun_steady {A} D a b : bytes D -> (a <= b)%nat -> (b <= length D)%nat ->
  forall (p : bprog A) pos, (pos <= a)%nat ->
  match brun D None p pos a with
  | RDone x q => brun D None p pos b = RDone x q
  | RFail => brun D None p pos b = RFail
  | RMore (p', pos') => brun D None p' pos' b = brun D None p pos b
  end.
Proof.
  intros Hb Hab Hl p pos Hp. pose proof (brun_stable D None a b Hb Hab Hl p pos Hp) as S.
  enough (F : brun D None p pos a = RFail -> brun D None p pos b = RFail).
  { destruct (brun D None p pos a) as [x q| |[p' pos']]; auto. }
  clear S. revert pos Hp. induction p as [x| |k IH|k IH|acc n k IH|k IH]; intros pos Hp; cbn [brun]; try discriminate; auto.
  - destruct (Nat.ltb_spec pos a); [|discriminate]. destruct (Nat.ltb_spec pos b); [|lia]. apply IH. lia.
  - rewrite (slice_app D pos a b) by lia. rewrite decode_base128_more.
    destruct (CodesModel.decode_base128 (slice D pos a)) as [v rest| |] eqn:E; [|discriminate|reflexivity].
    destruct (decode_slice_ok D pos a v rest Hb ltac:(lia) E) as (_ & H & _).
    rewrite app_length, slice_length by lia.
    replace (b - (length rest + (b - a)))%nat with (a - length rest)%nat by lia. apply IH. lia.
  - cbv zeta.
    set (pa := Z.to_nat (Z.min n (Z.of_nat (a - pos)))). set (pb := Z.to_nat (Z.min n (Z.of_nat (b - pos)))).
    destruct (Z.leb_spec (n - Z.of_nat pa) 0); [|discriminate].
    assert (E : pb = pa) by lia. rewrite E. destruct (Z.leb_spec (n - Z.of_nat pa) 0); [|lia]. apply IH. lia.
Qed.

(** Byte parsers with a boundary [e]: what happens beyond the boundary ... *)
Fixpoint past {A} (e : nat) (p : bprog A) : Prop :=
  match p with
  | BRet _ | BFail => True
  | BByte _ => False
  | BBase128 k => forall v, 0 <= v -> past e (k v)
  | BBytes acc n k => n <= 0 /\ forall l, past e (k l)
  | BPos k => forall q, (e < q)%nat -> past e (k q)
  end.
(** ... and that nothing there asks for more. *)
Fixpoint okb {A} (e : nat) (p : bprog A) : Prop :=
  match p with
  | BRet _ | BFail => True
  | BByte k => forall v, okb e (k v)
  | BBase128 k => forall v, 0 <= v -> okb e (k v) /\ past e (k v)
  | BBytes acc n k => forall l, okb e (k l)
  | BPos k => forall q, okb e (k q)
  end.

Lemma past_bind {A B} e (g : A -> bprog B) : (forall x, past e (g x)) -> forall p, past e p -> past e (bbind p g).
Proof. intros G. induction p as [x| |k IH|k IH|acc n k IH|k IH]; cbn [past bbind]; auto; try contradiction. intros [H1 H2]. split; auto. Qed.
Lemma okb_bind {A B} e (g : A -> bprog B) : (forall x, okb e (g x)) -> (forall x, past e (g x)) -> forall p, okb e p -> okb e (bbind p g).
Proof.
  intros G1 G2. induction p as [x| |k IH|k IH|acc n k IH|k IH]; cbn [okb bbind]; auto.
  intros H v Hv. destruct (H v Hv) as [H1 H2]. split; [auto|]. apply past_bind; auto.
Qed.

Lemma brun_past {A} D e b : bytes D -> (b <= length D)%nat -> forall (p : bprog A) pos, (e < pos <= b)%nat -> past e p ->
  match brun D (Some e) p pos b with RDone _ q => (e < q)%nat | RFail => True | RMore _ => False end.
Proof.
  intros Hb Hl. induction p as [x| |k IH|k IH|acc n k IH|k IH]; intros pos Hp H; cbn [past brun] in *; auto; try contradiction; try lia.
  - destruct (CodesModel.decode_base128 (slice D pos b)) as [v rest| |] eqn:E; auto.
    + destruct (decode_slice_ok D pos b v rest Hb ltac:(lia) E) as (H0 & H1 & _). apply IH; [lia|]. apply H. lia.
    + destruct (Nat.leb_spec (e - pos) (b - pos)); auto. lia.
  - destruct H as [H1 H2]. cbv zeta. set (piece := Z.to_nat (Z.min n (Z.of_nat (b - pos)))).
    destruct (Z.leb_spec (n - Z.of_nat piece) 0); [|lia]. apply IH; [lia|apply H2].
  - apply IH; [lia|]. apply H. lia.
Qed.

Lemma brun_boundary {A} D e a b : bytes D -> (a <= b)%nat -> (b <= length D)%nat ->
  forall (p : bprog A) pos, (pos <= a)%nat -> okb e p ->
  match brun D (Some e) p pos a with
  | RDone x q => brun D (Some e) p pos b = RDone x q
  | RFail => match brun D (Some e) p pos b with RDone _ q => (e < q)%nat | RFail => True | RMore _ => False end
  | RMore (p', pos') => okb e p' /\ brun D (Some e) p' pos' b = brun D (Some e) p pos b
  end.
Proof.
  intros Hb Hab Hl. induction p as [x| |k IH|k IH|acc n k IH|k IH]; intros pos Hp H; cbn [brun okb] in *.
  - reflexivity.
  - exact I.
  - destruct (Nat.ltb_spec pos a); [|split; [exact H|reflexivity]]. destruct (Nat.ltb_spec pos b); [|lia]. apply IH; [lia|apply H].
  - rewrite (slice_app D pos a b) by lia. rewrite decode_base128_more.
    destruct (CodesModel.decode_base128 (slice D pos a)) as [v rest| |] eqn:E.
    + destruct (decode_slice_ok D pos a v rest Hb ltac:(lia) E) as (H0 & H1 & _).
      rewrite app_length, slice_length by lia.
      replace (b - (length rest + (b - a)))%nat with (a - length rest)%nat by lia. apply IH; [lia|]. apply H. lia.
    + destruct (Nat.leb_spec (e - pos) (a - pos)) as [He|He].
      * rewrite <- slice_app by lia.
        destruct (CodesModel.decode_base128 (slice D pos b)) as [v rest| |] eqn:Eb.
        -- destruct (decode_slice_ok D pos b v rest Hb ltac:(lia) Eb) as (H0 & H1 & Hr).
           (* the number must extend past the visible part *)
           assert (X : (a < b - length rest)%nat).
           { destruct (Nat.le_gt_cases (b - length rest) a) as [C|C]; [exfalso|exact C].
             destruct (decode_base128_loop_used _ _ _ _ _ _ Eb) as (used & U1 & U2).
             assert (U3 : slice D pos (b - length rest) = used).
             { rewrite (slice_app D pos (b - length rest) b) in U1 by lia.
               rewrite Hr in U1 at 3. apply app_inv_tail in U1. exact U1. }
             rewrite (slice_app D pos (b - length rest) a), U3, decode_base128_more in E by lia.
             unfold CodesModel.decode_base128 in E. rewrite U2 in E. discriminate. }
           apply brun_past; auto; [lia|]. apply H. lia.
        -- destruct (Nat.leb_spec (e - pos) (b - pos)); [exact I|]. lia.
        -- exact I.
      * split; [exact H|]. cbn [brun]. rewrite (slice_app D pos a b) by lia. rewrite decode_base128_more, E. reflexivity.
    + exact I.
  - cbv zeta.
    set (pa := Z.to_nat (Z.min n (Z.of_nat (a - pos)))). set (pb := Z.to_nat (Z.min n (Z.of_nat (b - pos)))).
    destruct (Z.leb_spec (n - Z.of_nat pa) 0).
    + assert (E : pb = pa) by lia. rewrite E. destruct (Z.leb_spec (n - Z.of_nat pa) 0); [|lia]. apply IH; [lia|apply H].
    + split; [exact H|]. cbn [brun]. cbv zeta. assert (Ea : pa = (a - pos)%nat) by lia.
      set (pc := Z.to_nat (Z.min (n - Z.of_nat pa) (Z.of_nat (b - (pos + pa))))).
      assert (Ec : (pa + pc = pb)%nat) by lia.
      replace (n - Z.of_nat pa - Z.of_nat pc) with (n - Z.of_nat pb) by lia.
      replace (pos + pa + pc)%nat with (pos + pb)%nat by lia.
      rewrite <- app_assoc, <- slice_app by lia. reflexivity.
  - apply IH; [exact Hp|apply H].
Qed.
