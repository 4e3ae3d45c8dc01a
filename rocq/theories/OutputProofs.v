(** Delivery of output: nothing lost, nothing duplicated, independent of buffer sizes. *)
From Verif Require Import Base InternalsProofs ContainerModel DriverModel OutputModel.

Lemma push_spec : forall q cap o q' cap', push_output q cap = (o, q', cap') ->
  o ++ concat q' = concat q /\ (length o + cap' = cap)%nat /\ ((0 < cap')%nat -> q' = []).
Proof.
  induction q as [|c r IH]; intros cap o q' cap' E; cbn [push_output] in E.
  - injection E as <- <- <-. cbn. split; [reflexivity|]. split; [lia|auto].
  - destruct (Nat.eqb_spec cap 0) as [->|H0].
    { injection E as <- <- <-. cbn. split; [reflexivity|]. split; [lia|lia]. }
    destruct (Nat.leb_spec (length c) cap) as [H1|H1].
    + destruct (push_output r (cap - length c)) as [[o1 q1] c1] eqn:E1. injection E as <- <- <-.
      destruct (IH _ _ _ _ E1) as (A & B & C). cbn [concat]. rewrite <- app_assoc, A, app_length. split; [reflexivity|]. split; [lia|exact C].
    + injection E as <- <- <-. cbn [concat]. rewrite app_assoc, firstn_skipn, firstn_length. split; [reflexivity|]. split; [lia|lia].
Qed.

(** What one call produces, whatever the buffer. *)
Inductive kind := KErr | KNeed | KEnd.
Definition kind_of (s : sstatus) : kind := match s with Err => KErr | NeedsInput => KNeed | _ => KEnd end.

Fixpoint emit_sections (R : serializer) (info : sr_info R) (ms : list Z) (idx : nat) (st : sr_st R) : kind * list Z * stage (sr_st R) :=
  match ms with
  | [] => (KEnd, [], GDone)
  | m :: r =>
      let '(chunks, st', s) := sr_section R info st m in
      match s with
      | SecError => (KErr, concat chunks, GError)
      | SecNeedInput => (KNeed, concat chunks, GSection idx st')
      | SecDone => let '(k, o, g) := emit_sections R info r (S idx) st' in (k, concat chunks ++ o, g)
      end
  end.

Definition emit (R : serializer) (info : sr_info R) (g : stage (sr_st R)) : kind * list Z * stage (sr_st R) :=
  match g with
  | GError => (KErr, [], GError)
  | GInit =>
      match sr_start R info with
      | SrWait => (KNeed, [], GInit)
      | SrFallback None => (KErr, [], GError)
      | SrFallback (Some d) => (KEnd, d, GDone)
      | SrBad => (KErr, [], GError)
      | SrMarkers => let '(k, o, g') := emit_sections R info (sr_markers R info) 0 (sr_init R) in (k, [255; 216] ++ o, g')
      end
  | GSection idx st => emit_sections R info (skipn idx (sr_markers R info)) idx st
  | GDone => (KEnd, [], GDone)
  end.

Lemma done_status_spec q : kind_of (done_status q) = KEnd /\ (done_status q = Done <-> q = []).
Proof. destruct q; cbn; split; auto; split; intros H; auto; discriminate. Qed.

Lemma serialize_sections_spec R info : forall ms idx st q cap out s o ss',
  serialize_sections R info ms idx st q cap out = (s, o, ss') ->
  exists k p g, emit_sections R info ms idx st = (k, p, g) /\ kind_of s = k /\ ss_stage ss' = g /\
    (exists o', o = out ++ o' /\ o' ++ concat (ss_queue ss') = concat q ++ p /\ (length o' <= cap)%nat) /\
    (k = KEnd -> (s = Done <-> ss_queue ss' = [])).
Proof.
  induction ms as [|m r IH]; intros idx st q cap out s o ss' E; cbn [serialize_sections emit_sections] in *.
  - injection E as <- <- <-. destruct (done_status_spec q) as [D1 D2]. eexists _, _, _. split; [reflexivity|]. split; [exact D1|]. split; [reflexivity|].
    split; [exists []; rewrite !app_nil_r; cbn; split; [reflexivity|]; split; [reflexivity|lia]|]. intros _. exact D2.
  - destruct (sr_section R info st m) as [[chunks st'] sec]. destruct sec.
    + destruct (push_output (q ++ chunks) cap) as [[o1 q1] c1] eqn:Ep. destruct (push_spec _ _ _ _ _ Ep) as (P1 & P2 & _).
      destruct (IH _ _ _ _ _ _ _ _ E) as (k & p & g & F1 & F2 & F3 & (o2 & F4 & F5 & F6) & F7). rewrite F1. eexists _, _, _. split; [reflexivity|]. split; [exact F2|]. split; [exact F3|].
      split; [|exact F7]. exists (o1 ++ o2). rewrite F4, <- app_assoc. split; [reflexivity|]. split; [|rewrite app_length; lia].
      rewrite <- app_assoc, F5, app_assoc, P1, concat_app, <- app_assoc. reflexivity.
    + destruct (push_output (q ++ chunks) cap) as [[o1 q1] c1] eqn:Ep. destruct (push_spec _ _ _ _ _ Ep) as (P1 & P2 & _).
      injection E as <- <- <-. eexists _, _, _. split; [reflexivity|]. split; [reflexivity|]. split; [reflexivity|]. split; [|discriminate].
      exists o1. split; [reflexivity|]. cbn [ss_queue]. rewrite P1, concat_app. split; [reflexivity|lia].
    + injection E as <- <- <-. eexists _, _, _. split; [reflexivity|]. split; [reflexivity|]. split; [reflexivity|]. split; [|discriminate].
      exists []. rewrite app_nil_r. cbn [ss_queue Datatypes.app length]. rewrite concat_app. split; [reflexivity|]. split; [reflexivity|lia].
Qed.

Lemma serialize_spec R info ss cap s o ss' : serialize R info ss cap = (s, o, ss') ->
  exists k p g, emit R info (ss_stage ss) = (k, p, g) /\ kind_of s = k /\ ss_stage ss' = g /\
    o ++ concat (ss_queue ss') = concat (ss_queue ss) ++ p /\ (length o <= cap)%nat /\
    (k = KEnd -> (s = Done <-> ss_queue ss' = [])).
Proof.
  intros E. unfold serialize in E. destruct ss as [g q]. cbn [ss_stage ss_queue] in *.
  destruct (push_output q cap) as [[o1 q1] c1] eqn:Ep. destruct (push_spec _ _ _ _ _ Ep) as (P1 & P2 & P3).
  destruct g as [|idx st| |]; cbn [emit].
  - destruct (sr_start R info) as [|[d|]| |].
    + injection E as <- <- <-. eexists _, _, _. split; [reflexivity|]. split; [reflexivity|]. split; [reflexivity|]. rewrite app_nil_r. split; [exact P1|]. split; [lia|discriminate].
    + injection E as <- <- <-. eexists _, _, _. split; [reflexivity|]. split; [reflexivity|]. split; [reflexivity|]. cbn [ss_queue]. rewrite concat_app. cbn [concat]. rewrite app_nil_r, app_assoc, P1.
      split; [reflexivity|]. split; [lia|]. intros _. split; [discriminate|]. intros C. destruct q1; discriminate.
    + injection E as <- <- <-. eexists _, _, _. split; [reflexivity|]. split; [reflexivity|]. split; [reflexivity|]. rewrite app_nil_r. split; [exact P1|]. split; [lia|discriminate].
    + injection E as <- <- <-. eexists _, _, _. split; [reflexivity|]. split; [reflexivity|]. split; [reflexivity|]. rewrite app_nil_r. split; [exact P1|]. split; [lia|discriminate].
    + destruct (push_output (q1 ++ [[255; 216]]) c1) as [[o2 q2] c2] eqn:Ep2. destruct (push_spec _ _ _ _ _ Ep2) as (Q1 & Q2 & Q3).
      destruct (serialize_sections_spec _ _ _ _ _ _ _ _ _ _ _ E) as (k & p & g & F1 & F2 & F3 & (o3 & F4 & F5 & F6) & F7). rewrite F1.
      eexists _, _, _. split; [reflexivity|]. split; [exact F2|]. split; [exact F3|]. split; [|split; [|exact F7]].
      * rewrite F4, <- !app_assoc, F5. rewrite (app_assoc o2), Q1, concat_app. cbn [concat]. rewrite app_nil_r, <- app_assoc, app_assoc, P1. reflexivity.
      * rewrite F4, !app_length. lia.
  - destruct (serialize_sections_spec _ _ _ _ _ _ _ _ _ _ _ E) as (k & p & g & F1 & F2 & F3 & (o3 & F4 & F5 & F6) & F7). rewrite F1.
    eexists _, _, _. split; [reflexivity|]. split; [exact F2|]. split; [exact F3|]. split; [|split; [|exact F7]].
    + rewrite F4, <- app_assoc, F5, app_assoc, P1. reflexivity.
    + rewrite F4, app_length. lia.
  - injection E as <- <- <-. destruct (done_status_spec q1) as [D1 D2]. eexists _, _, _. split; [reflexivity|]. split; [exact D1|]. split; [reflexivity|]. rewrite app_nil_r.
    split; [exact P1|]. split; [lia|]. intros _. exact D2.
  - injection E as <- <- <-. eexists _, _, _. split; [reflexivity|]. split; [reflexivity|]. split; [reflexivity|]. cbn. rewrite app_nil_r. split; [reflexivity|]. split; [lia|discriminate].
Qed.

(** Runs that see the same parser states, with different buffers. *)
Lemma serialize_calls_same R : forall c1 c2 ss1 ss2 st1 st2, map fst c1 = map fst c2 -> ss_stage ss1 = ss_stage ss2 -> kind_of st1 = kind_of st2 ->
  forall s1 o1 t1 s2 o2 t2, serialize_calls R ss1 st1 c1 = (s1, o1, t1) -> serialize_calls R ss2 st2 c2 = (s2, o2, t2) ->
  kind_of s1 = kind_of s2 /\ ss_stage t1 = ss_stage t2 /\
  exists p, o1 ++ concat (ss_queue t1) = concat (ss_queue ss1) ++ p /\ o2 ++ concat (ss_queue t2) = concat (ss_queue ss2) ++ p.
Proof.
  induction c1 as [|[i n] c1 IH]; intros c2 ss1 ss2 st1 st2 Hm Hg Hk s1 o1 t1 s2 o2 t2 E1 E2.
  - destruct c2; [|discriminate]. cbn [serialize_calls] in *. injection E1 as <- <- <-. injection E2 as <- <- <-.
    split; [exact Hk|]. split; [exact Hg|]. exists []. rewrite !app_nil_r. auto.
  - destruct c2 as [|[i2 n2] c2]; [discriminate|]. cbn [map fst] in Hm. injection Hm as <- Hm. cbn [serialize_calls] in *.
    destruct (serialize R i ss1 n) as [[a1 b1] d1] eqn:F1. destruct (serialize R i ss2 n2) as [[a2 b2] d2] eqn:F2.
    destruct (serialize_spec _ _ _ _ _ _ _ F1) as (k1 & p1 & g1 & G1 & G2 & G3 & G4 & _).
    destruct (serialize_spec _ _ _ _ _ _ _ F2) as (k2 & p2 & g2 & K1 & K2 & K3 & K4 & _).
    rewrite <- Hg, G1 in K1. injection K1 as <- <- <-.
    destruct (serialize_calls R d1 a1 c1) as [[u1 v1] w1] eqn:H1. destruct (serialize_calls R d2 a2 c2) as [[u2 v2] w2] eqn:H2.
    injection E1 as <- <- <-. injection E2 as <- <- <-.
    destruct (IH c2 d1 d2 a1 a2 Hm (eq_trans G3 (eq_sym K3)) (eq_trans G2 (eq_sym K2)) _ _ _ _ _ _ H1 H2) as (A & B & p & C1 & C2).
    split; [exact A|]. split; [exact B|]. exists (p1 ++ p). rewrite <- !app_assoc, C1, C2, !app_assoc, G4, K4. auto.
Qed.

(** Draining: every call delivers as much as fits. *)
Lemma push_full q cap o q' cap' : push_output q cap = (o, q', cap') -> length o = Nat.min cap (length (concat q)).
Proof.
  intros E. destruct (push_spec _ _ _ _ _ E) as (A & B & C). destruct (Nat.eq_dec cap' 0) as [->|Hc].
  - apply f_equal with (f := @length Z) in A. rewrite app_length in A. lia.
  - rewrite (C ltac:(lia)) in A. cbn [concat] in A. rewrite app_nil_r in A. subst o. lia.
Qed.

(** ** WriteJpeg *)
Definition whole_output (R : serializer) (info : sr_info R) : option (list Z) :=
  match emit R info GInit with (KEnd, p, _) => Some p | _ => None end.

Lemma emit_end R info g k p g' : emit R info g = (k, p, g') -> k = KEnd -> g' = GDone.
Proof.
  intros E ->. destruct g as [|idx st| |]; cbn [emit] in E; try (injection E as <- <-; reflexivity); try discriminate.
  - assert (S : forall ms idx st p g, emit_sections R info ms idx st = (KEnd, p, g) -> g = GDone).
    { clear. induction ms as [|m r IH]; intros idx st p g E; cbn [emit_sections] in E; [congruence|]. destruct (sr_section R info st m) as [[c s'] [| |]]; try discriminate.
      destruct (emit_sections R info r (S idx) s') as [[k0 o0] g0] eqn:E0. injection E as -> <- <-. exact (IH _ _ _ _ E0). }
    destruct (sr_start R info) as [|[d|]| |]; try discriminate; [injection E as <- <-; reflexivity|].
    destruct (emit_sections R info (sr_markers R info) 0 (sr_init R)) as [[k0 o0] g0] eqn:E0. injection E as -> <- <-. exact (S _ _ _ _ _ E0).
  - assert (S : forall ms idx st p g, emit_sections R info ms idx st = (KEnd, p, g) -> g = GDone).
    { clear. induction ms as [|m r IH]; intros idx st p g E; cbn [emit_sections] in E; [congruence|]. destruct (sr_section R info st m) as [[c s'] [| |]]; try discriminate.
      destruct (emit_sections R info r (S idx) s') as [[k0 o0] g0] eqn:E0. injection E as -> <- <-. exact (IH _ _ _ _ E0). }
    exact (S _ _ _ _ _ E).
Qed.

(** The sink accepts the pieces one after the other. *)
Fixpoint accepts (K : sink) (k : sk_state K) (pieces : list (list Z)) : Prop :=
  match pieces with
  | [] => True
  | [] :: r => accepts K k r
  | o :: r => let '(n, k') := sk_call K k o in n = Z.of_nat (length o) /\ accepts K k' r
  end.

Lemma write_jpeg_ok R info K : forall fuel ss k r pieces, write_jpeg fuel R info K ss k = Some (r, pieces) ->
  exists kd p g, emit R info (ss_stage ss) = (kd, p, g) /\
    (r = true -> kd = KEnd /\ concat pieces = concat (ss_queue ss) ++ p /\ accepts K k pieces) /\
    (r = false -> kd <> KEnd \/ ~ accepts K k pieces).
Proof.
  induction fuel as [|f IH]; intros ss k r pieces E; [discriminate|]. cbn [write_jpeg] in E.
  destruct (serialize R info ss write_buffer) as [[st o] ss'] eqn:Es. destruct (serialize_spec _ _ _ _ _ _ _ Es) as (kd & p & g & F1 & F2 & F3 & F4 & F5 & F6).
  exists kd, p, g. split; [exact F1|]. assert (Snk : forall rest b k', sink_write K k o = (b, k') -> b = true -> (accepts K k (o :: rest) <-> accepts K k' rest)).
  { intros rest b k'. unfold sink_write. cbn [accepts]. destruct o as [|o0 ot].
    - intros W; injection W as <- <-. reflexivity.
    - destruct (sk_call K k (o0 :: ot)) as [n k1]. intros W; injection W as <- <-. intros Hn. apply Z.eqb_eq in Hn. tauto. }
  assert (Snf : forall rest k', sink_write K k o = (false, k') -> ~ accepts K k (o :: rest)).
  { intros rest k'. unfold sink_write. cbn [accepts]. destruct o as [|o0 ot]; [discriminate|]. destruct (sk_call K k (o0 :: ot)) as [n k1].
    intros W; injection W as Hn _. apply Z.eqb_neq in Hn. tauto. }
  destruct st.
  - injection E as <- <-. cbn in F2. split; [discriminate|]. intros _. left. subst kd. discriminate.
  - destruct (sink_write K k o) as [ok k'] eqn:W. destruct ok; cbn [negb] in E.
    + destruct (write_jpeg f R info K ss' k') as [[r1 p1]|] eqn:Er; [|discriminate]. cbn [obind fst snd] in E. apply some_inj in E. injection E as <- <-.
      destruct (IH _ _ _ _ Er) as (k1 & p' & g1 & H1 & H2 & H3). cbn in F2. subst kd. pose proof (emit_end _ _ _ _ _ _ F1 eq_refl) as ->.
      rewrite F3 in H1. cbn [emit] in H1. injection H1 as <- <- <-. split.
      * intros Hr. destruct (H2 Hr) as (_ & A & B). split; [reflexivity|]. split; [cbn [concat]; rewrite A, app_nil_r; exact F4|]. apply (Snk _ _ _ eq_refl eq_refl). exact B.
      * intros Hr. destruct (H3 Hr) as [A|A]; [congruence|]. right. intros C. apply A. apply (Snk _ _ _ eq_refl eq_refl). exact C.
    + injection E as <- <-. split; [discriminate|]. intros _. right. exact (Snf [] _ eq_refl).
  - injection E as <- <-. cbn in F2. split; [discriminate|]. intros _. left. subst kd. discriminate.
  - destruct (sink_write K k o) as [ok k'] eqn:W. cbn in F2. subst kd. destruct ok; cbn [negb] in E; injection E as <- <-.
    + split; [|discriminate]. intros _. split; [reflexivity|]. rewrite (proj1 (F6 eq_refl) eq_refl) in F4. cbn [concat] in *. split; [rewrite app_nil_r in *; exact F4|].
      apply (Snk [] _ _ eq_refl eq_refl). exact I.
    + split; [discriminate|]. intros _. right. exact (Snf [] _ eq_refl).
Qed.

(** The loop ends. *)
Lemma write_jpeg_done_total R info K : forall fuel q k, (length (concat q) + length q < fuel)%nat ->
  exists r, write_jpeg fuel R info K (mkSS GDone q) k = Some r.
Proof.
  induction fuel as [|f IH]; intros q k Hf; [lia|]. cbn [write_jpeg]. unfold serialize. cbn [ss_stage ss_queue].
  destruct (push_output q write_buffer) as [[o q1] c1] eqn:Ep. destruct q1 as [|c q1].
  - cbn [done_status]. destruct (sink_write K k o) as [ok k']. destruct ok; cbn [negb]; eauto.
  - cbn [done_status]. destruct (sink_write K k o) as [ok k']. destruct ok; cbn [negb]; [|eauto].
    assert (L : (length (concat (c :: q1)) + length (c :: q1) < f)%nat).
    { pose proof (push_full _ _ _ _ _ Ep) as PF. destruct (push_spec _ _ _ _ _ Ep) as (P1 & P2 & P3). apply f_equal with (f := @length Z) in P1. rewrite app_length in P1.
      assert (c1 = 0%nat) by (destruct (Nat.eq_dec c1 0); [assumption|discriminate P3; lia]). 
      assert (LQ : (length (c :: q1) <= length q)%nat).
      { clear - Ep. revert Ep. generalize write_buffer as cap. generalize (c :: q1) as q'. revert o c1. induction q as [|x q IH]; intros o c1 q' cap E; cbn [push_output] in E.
        - injection E as <- <- <-. lia.
        - destruct (cap =? 0)%nat; [injection E as <- <- <-; lia|]. destruct (length x <=? cap)%nat; [|injection E as <- <- <-; cbn; lia].
          destruct (push_output q (cap - length x)) as [[? ?] ?] eqn:E2. injection E as <- <- <-. apply IH in E2. cbn. lia. }
      assert (0 < write_buffer)%nat by (unfold write_buffer; lia). lia. }
    destruct (IH (c :: q1) k' L) as (r & ->). cbn [obind]. eauto.
Qed.

Lemma write_jpeg_total R info K k : exists fuel r, write_jpeg fuel R info K (mkSS GInit []) k = Some r.
Proof.
  destruct (serialize R info (mkSS GInit []) write_buffer) as [[st o] ss'] eqn:Es.
  destruct (serialize_spec _ _ _ _ _ _ _ Es) as (kd & p & g & F1 & F2 & F3 & _).
  destruct (kind_of st) eqn:Ek; subst kd.
  - exists 1%nat. cbn [write_jpeg]. rewrite Es. destruct st; try discriminate. eauto.
  - exists 1%nat. cbn [write_jpeg]. rewrite Es. destruct st; try discriminate. eauto.
  - pose proof (emit_end _ _ _ _ _ _ F1 eq_refl) as ->. destruct ss' as [g' q']. cbn [ss_stage] in F3. subst g'.
    destruct (sink_write K k o) as [ok k'] eqn:W.
    destruct (write_jpeg_done_total R info K (S (length (concat q') + length q')) q' k' ltac:(lia)) as (r & Er).
    eexists (S _). cbn [write_jpeg]. rewrite Es, W. destruct st; try discriminate; destruct ok; cbn [negb]; eauto; rewrite Er; cbn [obind]; eauto.
Qed.
