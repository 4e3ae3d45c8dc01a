(** The streaming decoder on a stream with a stored original. *)
From Verif Require Import Base CodesModel JpegModel MetaModel HeaderModel Stream BitSteady Machine ContainerModel GrammarProofs WordModel Decoder DriverModel DriverProofs OutputModel OutputProofs JBitModel JFileModel SerialModel SerialSpec SerialProofs4 ProgressModel ProgressProofs1 ProgressProofs5.

Section Stored.
  Context (B : brotli) (D : list Z) (HD : bytes D) (data : list Z) (ND : data <> []).
  Notation N := (length D).
  Notation XP := (x_parser B D).
  Notation p0 := (decode_stream (real_bodies B)).
  Notation st_of := (state_of B).
  Notation sees := (means D p0).
  Context (HR : mrun D p0 0 N = RDone (OOriginal data) N).

  Definition no_original (r : res (xstate B) (outcome picture)) : Prop := match r with RDone (OOriginal _) _ => False | _ => True end.
  Lemma sections_image avail : forall f met img pos, no_original (x_sections B D f avail met img pos).
  Proof.
    assert (NB : forall next, (forall met img pos, no_original (next met img pos)) -> forall f met img tag n start s, no_original (x_body B D next f met img tag n start s avail)).
    { intros next H f met img tag n start s. unfold x_body. destruct (x_call _ _ _ _ _ _ _) as [i q| |s']; try exact I. destruct (q =? n)%nat; [|exact I]. destruct (tag =? 8); [exact I|apply H]. }
    assert (NS : forall next, (forall met img pos, no_original (next met img pos)) -> forall f met img acc n pos, no_original (x_skip B D next f met img acc n pos avail)).
    { intros next H f met img acc n pos. unfold x_skip. cbv zeta. destruct (_ <=? 0); [apply H|exact I]. }
    induction f as [|f IH]; intros met img pos; cbn [x_sections]; [exact I|]. destruct (pos <? avail)%nat; [|exact I]. cbv zeta.
    destruct (_ || _); [exact I|]. destruct (negb _); [exact I|]. destruct (mem _ _); [exact I|]. destruct (_ && _); [exact I|].
    unfold x_len. destruct (decode_base128 _) as [n r| |]; try exact I. destruct (_ =? 2); [|apply IH]. destruct (known_tag _); [|apply NS; exact IH]. destruct (admissible _ _ _); [|exact I]. apply NB. exact IH.
  Qed.
  Lemma waits x q : x_run B D x N = RDone (OOriginal data) q -> waiting (look x) \/ exists p, x = XDone (OOriginal data) p.
  Proof.
    intros E. destruct x as [pos|qq pos|qq pos|f met img pos|f met img tag sec pos|f met img acc n pos|f met img tag n start s|o pos|]; try (left; repeat split; reflexivity).
    - pose proof (sections_image N f met img pos) as K. cbn [x_run] in E. rewrite E in K. contradiction.
    - cbn [x_run] in E. exfalso. pose proof (sections_image N f) as K. unfold x_len in E. destruct (decode_base128 _) as [n r| |]; try discriminate. destruct sec; [|rewrite <- (app_nil_r met) in E; specialize (K (met ++ []) img (N - length r)%nat); rewrite E in K; exact K].
      destruct (known_tag tag).
      + destruct (admissible _ _ _); [|discriminate]. unfold x_body in E. destruct (x_call _ _ _ _ _ _ _) as [i q0| |s']; try discriminate. destruct (_ =? _)%nat; [|discriminate]. destruct (tag =? 8); [discriminate|]. match type of E with ?t = _ => assert (no_original t) as K' by apply K end. rewrite E in K'. exact K'.
      + unfold x_skip in E. cbv zeta in E. destruct (_ <=? 0); [|discriminate]. match type of E with ?t = _ => assert (no_original t) as K' by apply K end. rewrite E in K'. exact K'.
    - cbn [x_run] in E. exfalso. pose proof (sections_image N f) as K. unfold x_skip in E. cbv zeta in E. destruct (_ <=? 0); [|discriminate]. match type of E with ?t = _ => assert (no_original t) as K' by apply K end. rewrite E in K'. exact K'.
    - cbn [x_run] in E. exfalso. pose proof (sections_image N f) as K. unfold x_body in E. destruct (x_call _ _ _ _ _ _ _) as [i q0| |s']; try discriminate. destruct (_ =? _)%nat; [|discriminate]. destruct (tag =? 8); [discriminate|]. match type of E with ?t = _ => assert (no_original t) as K' by apply K end. rewrite E in K'. exact K'.
    - cbn [x_run] in E. injection E as -> ->. right. eauto.
  Qed.

  Lemma stored_not_bad : ~ bad D p0.
  Proof. unfold bad. rewrite HR. congruence. Qed.
  Lemma stored_runs x T : sees (st_of x) T -> exists q, x_run B D x N = RDone (OOriginal data) q.
  Proof.
    intros M. destruct (pa_failed XP x) eqn:F; [destruct x; try discriminate; elim stored_not_bad; exact M|].
    assert (NE : x <> XErr) by (intros ->; discriminate). pose proof (x_run_ok B D x N NE) as R.
    assert (Q : mrun D (prog_of B x) (x_at B x) N = RDone (OOriginal data) N).
    { destruct x; try discriminate; cbn [state_of means] in M;
        try (apply verd_done; destruct M as (_ & _ & _ & _ & M); etransitivity; [exact M|]; rewrite HR; reflexivity).
      destruct M as (_ & M). rewrite HR in M. injection M as <- <-. reflexivity. }
    rewrite Q in R. destruct (x_run B D x N) as [o q| |]; cbn [sim] in R; try discriminate. injection R as <- <-. eauto.
  Qed.

  (** What holds between calls: [T] bytes taken, [o] delivered. *)
  Definition kept (d : xdecoder B D) (T : nat) (o : list Z) : Prop :=
    inv D p0 (drv_of B D (fst d)) T /\
    (snd d = mkSS GInit [] /\ o = [] /\ (T < N)%nat \/ ss_stage (snd d) = GDone /\ o ++ concat (ss_queue (snd d)) = data).

  Lemma kept_step d T o k cap : kept d T o -> exists s c o1 d1, xdecode B D d (firstn k (skipn T D)) cap = Some (s, c, o1, d1) /\ kept d1 (T + c) (o ++ o1) /\ s <> Err /\
    (s = Done -> ss_stage (snd d1) = GDone /\ ss_queue (snd d1) = []) /\ (Nat.min N (T + k) <= T + c)%nat /\
    (ss_stage (snd d) = GDone -> (length data < cap)%nat -> s = Done).
  Proof.
    intros (L1 & L2). destruct d as [d ss]. cbn [fst snd] in *. pose proof L1 as (LT & _). set (m := Nat.min k (N - T)).
    assert (EX : firstn k (skipn T D) = slice D T (T + m)).
    { unfold slice. replace (T + m - T)%nat with m by lia. unfold m. destruct (Nat.le_gt_cases k (N - T)); [rewrite Nat.min_l by lia; reflexivity|]. rewrite Nat.min_r by lia. rewrite !firstn_all2; [reflexivity| |]; rewrite skipn_length; lia. }
    rewrite EX. destruct (drive_stream D p0 HD (drv_of B D d) T m L1 ltac:(lia)) as (r & c & d' & E & C1 & C2 & C3 & C4 & C5).
    rewrite drive_of in E. unfold xdecode. cbn [fst snd]. destruct (drive XP d (slice D T (T + m))) as [[[r2 c2] dx]|] eqn:ED; [|discriminate]. cbn [res_of] in E. apply some_inj in E. injection E as -> -> <-.
    assert (NR : r <> StInvalid) by (intros ->; destruct (C4 eq_refl) as (_ & M & _); cbn [says] in C5; rewrite C5 in M; exact (stored_not_bad M)).
    specialize (C3 NR). unfold obind. cbv beta iota.
    assert (LE : (Nat.min N (T + k) <= T + c)%nat).
    { destruct r; [| |congruence].
      - cbn [says drv_of d_st] in C5. destruct C5 as (y & C5). destruct C3 as (_ & M & _). cbn [drv_of d_st] in M. rewrite C5 in M. destruct M as [_ M]. rewrite HR in M. injection M as _ ->. lia.
      - rewrite (C2 eq_refl). unfold m. lia. }
    pose proof C3 as (C6 & M & _). cbn [drv_of d_st] in M. destruct (stored_runs _ _ M) as (q & XR).
    assert (SE : exists s o1 ss1, serialize real_serializer (look (d_st dx)) ss cap = (s, o1, ss1) /\
        (ss1 = mkSS GInit [] /\ o ++ o1 = [] /\ (T + c < N)%nat \/ ss_stage ss1 = GDone /\ (o ++ o1) ++ concat (ss_queue ss1) = data) /\ s <> Err /\ (s = Done -> ss_stage ss1 = GDone /\ ss_queue ss1 = []) /\
        (ss_stage ss = GDone -> (length data < cap)%nat -> s = Done)).
    { destruct L2 as [(-> & -> & L3)|[G L3]].
      - destruct (waits _ _ XR) as [W|(p & W)].
        + pose proof (calls_waiting [(look (d_st dx), cap)] NeedsInput ltac:(constructor; [exact W|constructor]) eq_refl) as CW. cbn [serialize_calls] in CW.
          destruct (serialize real_serializer (look (d_st dx)) (mkSS GInit []) cap) as [[s o1] ss1]. injection CW as -> E1 ->. rewrite app_nil_r in E1. subst o1.
          exists NeedsInput, [], (mkSS GInit []). split; [reflexivity|]. split; [|split; [discriminate|split; [discriminate|discriminate]]]. left. split; [reflexivity|]. split; [reflexivity|].
          destruct (Nat.eq_dec (T + c) N) as [Q|]; [|lia]. exfalso. destruct r; [| |congruence]; cbn [says drv_of d_st] in C5.
          * destruct C5 as (y & C5). destruct (d_st dx) as [| | | | | | |oo p|]; cbn [state_of] in C5; try discriminate. destruct W as [W _]. destruct oo; discriminate.
          * destruct C5 as [_ C5]. destruct (C5 Q) as (t & C7). rewrite HR in C7. discriminate.
        + rewrite W. cbn [look]. unfold serialize. cbn [ss_stage ss_queue push_output sr_start real_serializer]. unfold real_start. cbn [v_done v_dc v_ac v_jpeg v_orig orb negb blank j_version Z.eqb Pos.eqb].
          destruct data as [|b0 bt] eqn:Ed; [congruence|]. rewrite <- Ed in *. eexists _, _, _. split; [reflexivity|]. cbn [ss_stage ss_queue Datatypes.app concat]. split; [right; split; [reflexivity|apply app_nil_r]|]. split; [discriminate|split; discriminate].
      - unfold serialize. rewrite G. destruct (push_output (ss_queue ss) cap) as [[oo q'] c2] eqn:Ep. destruct (push_spec _ _ _ _ _ Ep) as (P1 & P2 & P3). eexists _, _, _. split; [reflexivity|]. cbn [ss_stage ss_queue].
        split; [right; split; [reflexivity|]; rewrite <- app_assoc; transitivity (o ++ concat (ss_queue ss)); [f_equal; exact P1|exact L3]|].
        split; [destruct q'; discriminate|]. split; [intros Q; split; [reflexivity|]; destruct q'; [reflexivity|discriminate]|].
        intros _ LC. assert (LQ : (length (concat (ss_queue ss)) < cap)%nat) by (apply (f_equal (@length Z)) in L3; rewrite app_length in L3; lia).
        assert (Q : q' = []); [|subst q'; reflexivity]. clear - Ep LQ. revert cap oo q' c2 Ep LQ. induction (ss_queue ss) as [|c r IH]; intros cap oo q c2 Ep LQ; cbn [push_output] in Ep; [injection Ep as _ <- _; reflexivity|].
        cbn [concat] in LQ. rewrite app_length in LQ. destruct (Nat.eqb_spec cap 0); [lia|]. destruct (Nat.leb_spec (length c) cap); [|lia].
        destruct (push_output r (cap - length c)) as [[o' q'] c'] eqn:E. injection Ep as _ <- _. eapply IH; [exact E|lia]. }
    destruct SE as (s & o1 & ss1 & E1 & S2 & S4 & S5 & S6). rewrite E1. exists s, c, o1, (dx, ss1).
    split; [destruct r; [reflexivity|reflexivity|congruence]|]. split; [split; [exact C3|exact S2]|]. split; [exact S4|]. split; [exact S5|]. split; [exact LE|exact S6].
  Qed.

  Lemma kept_calls : forall calls d T st o, kept d T o -> st <> Err -> (st = Done -> ss_stage (snd d) = GDone /\ ss_queue (snd d) = []) ->
    exists s T' o1 d1, xdecode_calls B D d T st calls = Some (s, T', o1, d1) /\ kept d1 T' (o ++ o1) /\ s <> Err /\ (s = Done -> ss_stage (snd d1) = GDone /\ ss_queue (snd d1) = []) /\
      (Nat.min N (T + list_sum (map fst calls)) <= T')%nat.
  Proof.
    induction calls as [|[k cap] calls IH]; intros d T st o L N1 N2; cbn [xdecode_calls].
    - exists st, T, [], d. rewrite app_nil_r. split; [reflexivity|]. split; [exact L|]. split; [exact N1|]. split; [exact N2|]. cbn. lia.
    - destruct (kept_step d T o k cap L) as (s & c & o1 & d1 & E & L' & A1 & A2 & A3 & _). rewrite E. unfold obind. cbv beta iota.
      destruct (IH d1 (T + c)%nat s (o ++ o1) L' A1 A2) as (s2 & T2 & o2 & d2 & E2 & L2 & B1 & B2 & B3). rewrite E2. exists s2, T2, (o1 ++ o2), d2. split; [reflexivity|].
      split; [rewrite app_assoc; exact L2|]. split; [exact B1|]. split; [exact B2|]. cbn [map fst list_sum fold_right] in *. fold (list_sum (map fst calls)). lia.
  Qed.

  Lemma kept_start (G : good_bodies (real_bodies B)) : kept (xdecoder_start B D) 0 [].
  Proof.
    destruct (decode_stream_good _ D G HD) as [G1 G2]. split; [exact (stream_start_inv D p0 G1 G2)|]. left. split; [reflexivity|]. split; [reflexivity|].
    destruct D; [|cbn; lia]. exfalso. pose proof HR as HR'. unfold decode_stream in HR'. cbn [mrun length] in HR'. change (0 + 6 <=? 0)%nat with false in HR'. cbv iota in HR'. discriminate.
  Qed.
End Stored.
