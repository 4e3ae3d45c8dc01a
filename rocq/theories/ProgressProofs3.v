(** What a state of the parser with explicit state has behind it, and what a stream that is read
    to its end leaves as it is. *)
From Verif Require Import Base CodesModel JpegModel EntropyModel LehmerModel LehmerProofs QuantModel InternalsModel MetaModel HeaderModel Stream Machine ContainerModel HSecModel CoefModel CoefProofs WordModel Decoder DriverModel OutputModel SerialModel ProgressModel ProgressSpec ProgressProofs2.

(** * The tags of a stream *)
Lemma b128_shorter : forall f i v l n r, decode_base128_loop f i v l = BOk n r -> (length r < length l)%nat.
Proof.
  induction f as [|f IH]; intros i v l n r E; cbn [decode_base128_loop] in E; [discriminate|]. destruct l as [|b l]; [discriminate|]. cbn [length].
  destruct (Z.land b 128 =? 0); [injection E as _ <-; lia|]. apply IH in E. lia.
Qed.
Definition tags (l : list Z) : list Z := section_tags (length l) l.
Lemma tags_fuel : forall f l, (length l <= f)%nat -> section_tags f l = tags l.
Proof.
  unfold tags. assert (G : forall f g l, (length l <= f)%nat -> (length l <= g)%nat -> section_tags f l = section_tags g l).
  { induction f as [|f IH]; intros [|g] l H1 H2; destruct l as [|m l]; cbn [length] in *; try lia; try reflexivity. cbn [section_tags].
    destruct (decode_base128 l) as [n r| |] eqn:E; try reflexivity. f_equal. apply b128_shorter in E.
    assert (le (length (if Z.land m 7 =? 2 then skipn (Z.to_nat n) r else r)) (length r)) by (destruct (_ =? 2); [rewrite skipn_length; lia|lia]). apply IH; lia. }
  intros f l H. apply G; lia.
Qed.
Lemma tags_cons m l : tags (m :: l) = match decode_base128 l with
  | BOk n r => Z.shiftr m 3 :: tags (if Z.land m 7 =? 2 then skipn (Z.to_nat n) r else r) | _ => [] end.
Proof.
  unfold tags at 1. cbn [length section_tags]. destruct (decode_base128 l) as [n r| |] eqn:E; try reflexivity. f_equal. apply b128_shorter in E. apply tags_fuel.
  destruct (_ =? 2); [rewrite skipn_length; lia|lia].
Qed.

Lemma skipn_head (D : list Z) pos : (pos < length D)%nat -> skipn pos D = nth pos D 0 :: skipn (S pos) D.
Proof. revert D. induction pos as [|pos IH]; intros [|x D] H; cbn [length] in H; try lia; [reflexivity|]. cbn [skipn nth]. rewrite IH by lia. reflexivity. Qed.
Lemma slice_end D pos : slice D pos (length D) = skipn pos D.
Proof. unfold slice. apply firstn_all2. rewrite skipn_length. lia. Qed.
Lemma b128_at D pos avail n rest : bytes D -> (pos <= avail <= length D)%nat -> decode_base128 (slice D pos avail) = BOk n rest ->
  decode_base128 (skipn pos D) = BOk n (skipn (avail - length rest) D) /\ 0 <= n /\ (pos < avail - length rest <= avail)%nat.
Proof.
  intros HD H E. destruct (decode_slice_ok D pos avail n rest HD H E) as (Hn & Hp & Hr). split; [|split; lia].
  rewrite <- slice_end, (slice_app D pos avail (length D)) by lia. rewrite decode_base128_more, E. f_equal.
  rewrite Hr at 1. rewrite <- slice_app by lia. apply slice_end.
Qed.

(** The header ends where its length says. *)
Lemma header_items_end D h q : forall f send met vals pos, brun D None (header_items f send met vals) pos (length D) = RDone h q -> Z.of_nat q = send.
Proof.
  induction f as [|f IH]; intros send met vals pos E.
  - cbn [header_items brun] in E. destruct (Z.eqb_spec (Z.of_nat pos) send) as [<-|]; [|discriminate]. destruct (header_finale met vals); cbn [brun] in E; [|discriminate]. injection E as _ <-. reflexivity.
  - cbn [header_items brun] in E. destruct (Z.eqb_spec (Z.of_nat pos) send) as [<-|]; [destruct (header_finale met vals); cbn [brun] in E; [|discriminate]; injection E as _ <-; reflexivity|].
    unfold read_tag in E. cbn [brun] in E. destruct (pos <? length D)%nat; [|discriminate]. cbv zeta in E.
    destruct (_ || _); [discriminate|]. destruct (negb _); [discriminate|]. destruct (mem _ met); [discriminate|]. destruct (_ =? 2).
    + cbn [brun] in E. destruct (decode_base128 _) as [n0 r0| |]; [|discriminate|discriminate]. cbv zeta in E. destruct (_ <=? 0); [|discriminate]. apply IH in E. exact E.
    + cbn [brun] in E. destruct (decode_base128 _) as [n0 r0| |]; [|discriminate|discriminate]. apply IH in E. exact E.
Qed.
Lemma header_end D h pos q : bytes D -> brun D None decode_header pos (length D) = RDone h q -> tags (skipn pos D) = 2 :: tags (skipn q D).
Proof.
  intros HD E. unfold decode_header, read_tag in E. cbn [brun] in E. destruct (Nat.ltb_spec pos (length D)) as [L|]; [|discriminate]. cbv zeta in E.
  destruct (_ || _); [discriminate|]. destruct (negb (_ || _)); [discriminate|]. destruct (mem _ [1]); [discriminate|].
  destruct (Z.eqb_spec (Z.shiftr (nth pos D 0) 3) 2) as [Et|]; [|discriminate]. destruct (Z.land (nth pos D 0) 7 =? 2) eqn:Ew; [|discriminate]. cbn [negb orb brun] in E.
  destruct (decode_base128 (slice D (S pos) (length D))) as [n rest| |] eqn:Eb; [|discriminate|discriminate]. apply header_items_end in E.
  destruct (b128_at D (S pos) (length D) n rest HD ltac:(lia) Eb) as (B1 & B2 & B3). rewrite skipn_head by exact L. rewrite tags_cons, B1, Et, Ew. f_equal.
  rewrite skipn_add. f_equal. f_equal. lia.
Qed.

Section Inv.
  Context (B : brotli) (D : list Z) (HD : bytes D) (MF : metadata_first D).
  Notation N := (length D).
  Notation xres := (res (xstate B) (outcome picture)).

  (** The tags met. *)
  Definition base (met : list Z) : Prop :=
    (mem 5 met = true -> mem 4 met = true) /\ (mem 6 met = true -> mem 4 met = true) /\ (mem 7 met = true -> mem 5 met = true /\ mem 6 met = true).
  (** Where the next section starts. *)
  Definition spot (met : list Z) (pos : nat) : Prop := exists pre, tags D = pre ++ tags (skipn pos D) /\ (mem 7 met = true -> In 7 pre).
  Definition clean (met : list Z) (img : picture) : Prop := pi_ac img = None /\ (mem 7 met = false -> pi_dc img = None).
  Definition kind (tag : Z) (s : bstate B) : Prop :=
    match s with BSMeta _ => tag = 3 | BSInt _ => tag = 4 | BSQuant _ _ _ => tag = 5 | BSHist _ _ _ => tag = 6 | BSDC _ => False | BSAC _ => False | BSBad => True end.
  Definition body_inv (tag : Z) (img : picture) (s : xbody B) : Prop :=
    match s with
    | XPlain s => kind tag s
    | XDC c t _ _ => tag = 7 /\ metas_of img = Some (cf_ms c) /\ exists pre, visits (cf_ms c) = pre ++ dx_vs t
    | XAC c t _ _ => tag = 8 /\ metas_of img = Some (cf_ms c) /\ acx_ok c t /\ exists planes flags, pi_dc img = Some (planes, flags) /\ dc_same planes (acx_planes t)
    end.
  (** What follows the tag. *)
  Definition after_tag (met : list Z) (tag : Z) (sec : bool) (pos : nat) : Prop :=
    exists pre, (mem 7 met = true -> In 7 pre) /\ forall n r, decode_base128 (skipn pos D) = BOk n r -> tags D = pre ++ tag :: tags (if sec then skipn (Z.to_nat n) r else r).
  Definition xinv (x : xstate B) : Prop :=
    match x with
    | XSig pos => pos = 0%nat
    | XHead q pos => (pos <= N)%nat /\ brun D None q pos N = brun D None decode_header 6 N /\ exists pre, tags D = pre ++ tags (skipn 6 D)
    | XOrig _ _ => True
    | XTag _ met img pos => base met /\ spot met pos /\ clean met img
    | XLen _ met img tag sec pos => exists met0, met = tag :: met0 /\ mem tag met0 = false /\ base met0 /\ clean met0 img /\ (known_tag tag = true -> sec = true) /\ after_tag met0 tag sec pos
    | XSkip _ met img _ n pos => 0 <= n /\ base met /\ spot met (pos + Z.to_nat n) /\ clean met img
    | XBody _ met img tag n start s => exists met0, met = tag :: met0 /\ mem tag met0 = false /\ base met0 /\ base met /\ clean met0 img /\ spot met (start + n) /\ body_inv tag img s /\
        (tag = 3 -> mem 7 met0 = false) /\ (3 <= tag <= 8)
    | XDone _ _ => True
    | XErr => True
    end.

  (** ** One call *)
  Definition ann (x : xstate B) : bool := let v := look x in v_done v || v_dc v || v_ac v.
  Definition met_ann (met : list Z) : bool := mem 7 met || mem 8 met.

  Lemma gcall_keeps {T A} run (t0 : T) n V sub pos avail (PT : T -> Prop) (PA : A -> Prop) : PT t0 ->
    (forall opt d, match run opt d with GoDone a _ => PA a | GoBad => True | GoMore t _ => PT t end) ->
    match gcall run t0 n V sub pos avail with RDone a _ => PA a | RFail => True | RMore (t, _, _) => PT t end.
  Proof.
    intros H0 H. unfold gcall. destruct (Nat.odd n); [exact I|]. cbv zeta.
    assert (G : forall last d, match match run last d with
      | GoBad => RFail
      | GoDone a d' =>
          let q := (pos + 2 * (length (bytes_to_words (slice V pos (pos + Nat.min ((avail - pos) / 2 * 2) (n - pos)))) - length (ws_words (d_src d'))))%nat in
          if ws_error (d_src d') then RFail else if negb (d_finalize d') then RFail else if negb (q =? n)%nat then RFail else RDone a q
      | GoMore t d' =>
          let q := (pos + 2 * (length (bytes_to_words (slice V pos (pos + Nat.min ((avail - pos) / 2 * 2) (n - pos)))) - length (ws_words (d_src d'))))%nat in
          if ws_error (d_src d') then RFail else if last then RFail else RMore (t, Some d', q)
      end with RDone a _ => PA a | RFail => True | RMore (t, _, _) => PT t end).
    { intros last d. specialize (H last d). destruct (run last d); cbv zeta; [| exact I |].
      - destruct (ws_error _); [exact I|]. destruct (negb _); [exact I|]. destruct (negb _); [exact I|]. exact H.
      - destruct (ws_error _); [exact I|]. destruct last; [exact I|]. exact H. }
    destruct sub as [d|]; [apply G|]. destruct (_ || _); [apply G|exact H0].
  Qed.

  Definition hdr (p : picture) := (pi_w p, pi_h p, pi_version p, pi_legacy p, pi_samp p, pi_grid p).
  (** What a section leaves as it is. *)
  Definition changes (tag : Z) (p p' : picture) : Prop :=
    hdr p' = hdr p /\ (tag <> 3 -> pi_meta p' = pi_meta p) /\ (tag <> 4 -> pi_int p' = pi_int p) /\ (tag <> 5 -> pi_quant p' = pi_quant p) /\
    (tag <> 6 -> pi_hist p' = pi_hist p) /\ (tag <> 7 -> pi_dc p' = pi_dc p) /\ (tag <> 8 -> pi_ac p' = pi_ac p).
  Definition body_made (tag : Z) (img' : picture) (s : xbody B) : Prop :=
    match s with
    | XPlain _ => tag <> 7 /\ tag <> 8
    | XDC c t _ _ => exists planes flags, pi_dc img' = Some (planes, flags) /\ same_shape planes (dx_planes t) /\ forall i j, passed (cf_ms c) (dx_vs t) i j -> block_at planes i j = block_at (dx_planes t) i j
    | XAC c t _ _ => exists planes, pi_ac img' = Some planes /\ dc_same (acx_planes t) planes /\
        match t with ABlocks _ _ vs _ pl => forall i j, passed (cf_ms c) vs i j -> block_at planes i j = block_at pl i j | _ => True end
    end.

  Lemma x_call_keeps tag n img V s avail : body_inv tag img s ->
    match x_call B tag n img V s avail with
    | RDone img' _ => changes tag img img' /\ body_made tag img' s
    | RFail => True
    | RMore s' => body_inv tag img s'
    end.
  Proof.
    intros H. destruct s as [s|c t sub pos|c t sub pos]; cbn [x_call].
    - cbn [body_inv] in H. destruct s as [s|s|q b pos|q b pos|s|s|]; cbn [kind] in H; try contradiction; subst; cbn [body_call].
      + destruct (mdcall _ _ _ _ _); cbn [lift_res body_inv kind]; try exact I; try reflexivity. split; [unfold changes, hdr; cbn; repeat split; intros; congruence|]. cbn [body_made]. lia.
      + destruct (jcall _ _ _ _); cbn [lift_res body_inv kind]; try exact I; try reflexivity. split; [unfold changes, hdr; cbn; repeat split; intros; congruence|]. cbn [body_made]. lia.
      + destruct (scall _ _ _ _ _) as [| |[[? ?] ?]]; cbn [lift_res body_inv kind]; try exact I; try reflexivity. split; [unfold changes, hdr; cbn; repeat split; intros; congruence|]. cbn [body_made]. lia.
      + destruct (scall _ _ _ _ _) as [| |[[? ?] ?]]; cbn [lift_res body_inv kind]; try exact I; try reflexivity. split; [unfold changes, hdr; cbn; repeat split; intros; congruence|]. cbn [body_made]. lia.
      + cbn [lift_res]. exact I.
    - destruct H as (-> & Hm & pre & Hv).
      pose proof (gcall_keeps (xrun_dc c (dx_vs t) (dx_sts t) (dx_planes t) (dx_flags t)) t n V sub pos avail
        (fun t' => exists pre, visits (cf_ms c) = pre ++ dx_vs t')
        (fun a => same_shape (fst a) (dx_planes t) /\ forall i j, passed (cf_ms c) (dx_vs t) i j -> block_at (fst a) i j = block_at (dx_planes t) i j) (ex_intro _ _ Hv)) as G.
      destruct (gcall _ _ _ _ _ _ _) as [[planes flags] q| |[[t' sub'] pos']]; cbn [lift_res]; [|exact I|].
      + lapply G; [clear G; intros [G1 G2]|]. 
        * split; [unfold changes, hdr; cbn; repeat split; intros; congruence|]. cbn [body_made]. exists planes, flags. split; [reflexivity|]. auto.
        * intros opt d. pose proof (xrun_dc_keeps c opt (dx_vs t) (dx_sts t) (dx_planes t) (dx_flags t) d) as K. destruct (xrun_dc _ _ _ _ _ _ _) as [[? ?] ?| |]; [exact K|exact I|]. destruct K as [_ [p' K]]. exists (pre ++ p'). rewrite <- app_assoc, <- K. exact Hv.
      + lapply G; [clear G; intros G; cbn [body_inv]; auto|].
        intros opt d. pose proof (xrun_dc_keeps c opt (dx_vs t) (dx_sts t) (dx_planes t) (dx_flags t) d) as K. destruct (xrun_dc _ _ _ _ _ _ _) as [[? ?] ?| |]; [exact K|exact I|]. destruct K as [_ [p' K]]. exists (pre ++ p'). rewrite <- app_assoc, <- K. exact Hv.
    - destruct H as (-> & Hm & Ho & planes0 & flags0 & Hd & Hs).
      pose proof (gcall_keeps (xrun_acx c t) t n V sub pos avail
        (fun t' => acx_ok c t' /\ dc_same planes0 (acx_planes t'))
        (fun a => dc_same (acx_planes t) a /\ match t with ABlocks _ _ vs _ planes => forall i j, passed (cf_ms c) vs i j -> block_at a i j = block_at planes i j | _ => True end) (conj Ho Hs)) as G.
      lapply G; [clear G; intros G|].
      + destruct (gcall _ _ _ _ _ _ _) as [planes q| |[[t' sub'] pos']]; cbn [lift_res]; [|exact I|].
        * split; [unfold changes, hdr; cbn; repeat split; intros; congruence|]. cbn [body_made]. exists planes. split; [reflexivity|]. exact G.
        * cbn [body_inv]. destruct G as [G1 G2]. split; [reflexivity|]. split; [exact Hm|]. split; [exact G1|]. eauto.
      + intros opt d. pose proof (xrun_acx_keeps c t opt d Ho) as K. destruct (xrun_acx c t opt d); [exact K|exact I|]. destruct K as [K1 K2]. split; [exact K2|]. eapply dc_same_trans; eassumption.
  Qed.

  Lemma x_init_inv tag n img : 3 <= tag <= 8 -> body_inv tag img (x_init B tag n img).
  Proof.
    intros H. unfold x_init. destruct (Z.eqb_spec tag 7) as [->|H7].
    - destruct (metas_of img) as [ms|] eqn:Em; [|exact I]. destruct (pi_hist img) as [[[? cmap] codes]|]; [|exact I]. cbn [body_inv cf_ms dx_vs]. split; [reflexivity|]. split; [exact Em|]. exists []. reflexivity.
    - destruct (Z.eqb_spec tag 8) as [->|H8].
      + destruct (metas_of img) as [ms|] eqn:Em; [|exact I]. destruct (pi_hist img) as [[[? cmap] codes]|]; [|exact I]. destruct (pi_dc img) as [[planes flags]|] eqn:Ed; [|exact I].
        cbn [body_inv cf_ms acx_ok acx_planes]. split; [reflexivity|]. split; [exact Em|]. split; [constructor|]. exists planes, flags. split; [exact Ed|apply dc_same_refl].
      + cbn [body_inv]. unfold body_init. destruct (Z.eqb_spec tag 3); [assumption|]. destruct (Z.eqb_spec tag 4); [assumption|].
        destruct (Z.eqb_spec tag 5); [destruct (pi_int img) as [[? ?]|]; cbn [kind]; auto|]. destruct (Z.eqb_spec tag 6); [assumption|].
        destruct (Z.eqb_spec tag 7); [congruence|]. destruct (Z.eqb_spec tag 8); [congruence|]. exact I.
  Qed.

  (** What a stream read to its end with the image [P] has kept of [img]. *)
  Definition keep (met : list Z) (img P : picture) : Prop :=
    hdr P = hdr img /\ (mem 4 met = true -> pi_int P = pi_int img) /\ (mem 5 met = true -> pi_quant P = pi_quant img) /\
    (mem 6 met = true -> pi_hist P = pi_hist img) /\ mem 8 met = false /\
    (mem 7 met = true -> pi_meta P = pi_meta img /\ exists planes flags pl, pi_dc img = Some (planes, flags) /\ pi_ac P = Some pl /\ dc_same planes pl).
  Definition moved (met : list Z) (x' : xstate B) : Prop := xinv x' /\ (met_ann met = true -> ann x' = true).
  Definition post (met : list Z) (img : picture) (r : xres) : Prop :=
    match r with RDone (OImage P) _ => keep met img P | RMore x' => moved met x' | _ => True end.
  Definition good_next (next : list Z -> picture -> nat -> xres) : Prop :=
    forall met img pos, base met -> spot met pos -> clean met img -> post met img (next met img pos).
  Definition body_post (met : list Z) (img : picture) (tag : Z) (s : xbody B) (r : xres) : Prop :=
    match r with
    | RDone (OImage P) _ => exists img', changes tag img img' /\ body_made tag img' s /\ (tag = 8 -> P = img') /\ (tag <> 8 -> keep met img' P)
    | RMore x' => moved met x'
    | _ => True
    end.

  Lemma mem_cons' t u met : mem t (u :: met) = (t =? u) || mem t met.
  Proof. reflexivity. Qed.
  Lemma met_ann_cons tag met : met_ann met = true -> met_ann (tag :: met) = true.
  Proof. unfold met_ann. rewrite !mem_cons'. destruct (mem 7 met), (mem 8 met), (7 =? tag), (8 =? tag); cbn; congruence. Qed.

  Lemma body_posts next f met0 img tag n start s avail : good_next next -> mem tag met0 = false -> base met0 -> base (tag :: met0) -> clean met0 img -> spot (tag :: met0) (start + n) ->
    body_inv tag img s -> (tag = 3 -> mem 7 met0 = false) -> 3 <= tag <= 8 -> body_post (tag :: met0) img tag s (x_body B D next f (tag :: met0) img tag n start s avail).
  Proof.
    intros Hn H1 H2 H3 H4 H5 H6 H7 H8. unfold x_body. pose proof (x_call_keeps tag n img (section_view D start n) s (avail - start) H6) as K.
    destruct (x_call B tag n img (section_view D start n) s (avail - start)) as [img' q| |s']; [|exact I|].
    - destruct K as [K1 K2]. destruct (q =? n)%nat; [|exact I]. destruct (Z.eqb_spec tag 8) as [->|N8].
      + cbn [body_post]. exists img'. split; [exact K1|]. split; [exact K2|]. split; [reflexivity|congruence].
      + assert (C' : clean (tag :: met0) img').
        { destruct K1 as (_ & _ & _ & _ & _ & C7 & C8). destruct H4 as [A1 A2]. split; [rewrite C8 by exact N8; exact A1|]. rewrite mem_cons'. intros Q. apply orb_false_iff in Q as [Q1 Q2]. rewrite C7 by lia. apply A2, Q2. }
        pose proof (Hn (tag :: met0) img' (start + n)%nat H3 H5 C') as P. destruct (next (tag :: met0) img' (start + n)%nat) as [[P'|]| |x']; cbn [post body_post] in *; auto.
        exists img'. split; [exact K1|]. split; [exact K2|]. split; [congruence|]. intros _. exact P.
    - cbn [body_post]. split.
      + cbn [xinv]. exists met0. repeat split; try assumption; try apply H2; try apply H3; try apply H4; try lia.
      + intros Q. unfold ann. cbn. exact Q.
  Qed.

  Lemma keep_back met0 img img' P tag : changes tag img img' -> mem tag met0 = false -> (tag = 3 -> mem 7 met0 = false) -> keep (tag :: met0) img' P -> keep met0 img P.
  Proof.
    intros (C1 & C3 & C4 & C5 & C6 & C7 & C8) Hm H3 (K1 & K4 & K5 & K6 & K8 & K7). unfold keep. rewrite !mem_cons' in *.
    assert (Q : forall t, mem t met0 = true -> tag <> t) by (intros t Ht ->; congruence).
    split; [congruence|]. split; [|split; [|split; [|split]]].
    - intros M. rewrite <- C4 by (apply Q, M). apply K4. rewrite M. apply orb_true_r.
    - intros M. rewrite <- C5 by (apply Q, M). apply K5. rewrite M. apply orb_true_r.
    - intros M. rewrite <- C6 by (apply Q, M). apply K6. rewrite M. apply orb_true_r.
    - apply orb_false_iff in K8. apply K8.
    - intros M. rewrite <- C3, <- C7 by (try (apply Q, M); intros ->; rewrite H3 in M by reflexivity; discriminate). apply K7. rewrite M. apply orb_true_r.
  Qed.
  Lemma body_post_keep met0 img tag s P q : mem tag met0 = false -> (tag = 3 -> mem 7 met0 = false) -> body_inv tag img s ->
    body_post (tag :: met0) img tag s (RDone (OImage P) q) -> keep met0 img P.
  Proof.
    intros Hm H3 HI (img' & C & M & E8 & K). destruct (Z.eq_dec tag 8) as [->|N8]; [|eapply keep_back; eauto].
    rewrite <- (E8 eq_refl) in *. destruct C as (C1 & C3 & C4 & C5 & C6 & C7 & C8). unfold keep. split; [exact C1|]. split; [intros _; apply C4; lia|]. split; [intros _; apply C5; lia|]. split; [intros _; apply C6; lia|].
    split; [exact Hm|]. intros _. split; [apply C3; lia|]. destruct s as [s|c t sub pos|c t sub pos]; cbn [body_made body_inv] in *; [lia|destruct HI; lia|].
    destruct HI as (_ & _ & _ & planes & flags & Ed & Es). destruct M as (pl & Ea & Es2 & _). exists planes, flags, pl. split; [exact Ed|]. split; [exact Ea|]. eapply dc_same_trans; eassumption.
  Qed.

  Lemma skip_posts next f met img acc n pos avail : good_next next -> 0 <= n -> base met -> spot met (pos + Z.to_nat n) -> clean met img ->
    post met img (x_skip B D next f met img acc n pos avail).
  Proof.
    intros Hn H0 H1 H2 H3. unfold x_skip. set (piece := Z.to_nat (Z.min n (Z.of_nat (avail - pos)))). destruct (Z.leb_spec (n - Z.of_nat piece) 0) as [L|L].
    - apply Hn; auto. replace (pos + piece)%nat with (pos + Z.to_nat n)%nat by lia. exact H2.
    - cbn [post]. split; [|intros Q; exact Q || (unfold ann; cbn; exact Q)]. cbn [xinv]. split; [lia|]. split; [exact H1|]. split; [|exact H3].
      replace (pos + piece + Z.to_nat (n - Z.of_nat piece))%nat with (pos + Z.to_nat n)%nat by lia. exact H2.
  Qed.

  Lemma In_split7 pre tag rest : tags D = pre ++ tag :: rest -> In 7 pre -> tag <> 3.
  Proof.
    intros E H ->. apply in_split in H as (a & b & ->). rewrite <- app_assoc in E. cbn [Datatypes.app] in E. apply (MF a _ E). apply in_or_app. right. left. reflexivity.
  Qed.

  Definition len_post (met0 : list Z) (img : picture) (tag : Z) (r : xres) : Prop :=
    match r with
    | RDone (OImage P) _ => keep met0 img P /\ (known_tag tag = true -> exists n, admissible tag n (tag :: met0) = true) /\ (tag = 7 -> pi_meta P = pi_meta img)
    | RMore x' => moved (tag :: met0) x'
    | _ => True
    end.
  Lemma len_posts next f met0 img tag sec pos avail : good_next next -> (pos <= avail <= N)%nat -> mem tag met0 = false -> base met0 -> clean met0 img -> (known_tag tag = true -> sec = true) ->
    after_tag met0 tag sec pos -> len_post met0 img tag (x_len B D next f (tag :: met0) img tag sec pos avail).
  Proof.
    intros Hn Hp H1 H2 H3 H4 H5. unfold x_len. destruct (decode_base128 (slice D pos avail)) as [n rest| |] eqn:Eb; [| |exact I].
    - destruct (b128_at D pos avail n rest HD Hp Eb) as (B1 & B2 & B3). destruct H5 as (pre & P1 & P2). specialize (P2 _ _ B1).
      assert (S : spot (tag :: met0) (avail - length rest + (if sec then Z.to_nat n else 0))%nat).
      { exists (pre ++ [tag]). split.
        - rewrite P2, <- app_assoc. cbn [Datatypes.app]. destruct sec; [rewrite skipn_add; rewrite Nat.add_comm; reflexivity|rewrite Nat.add_0_r; reflexivity].
        - rewrite mem_cons'. intros Q. apply in_or_app. apply orb_true_iff in Q as [Q|Q]; [right; left; lia|left; exact (P1 Q)]. }
      assert (K3 : tag = 3 -> mem 7 met0 = false).
      { intros ->. destruct (mem 7 met0) eqn:M; [|reflexivity]. exfalso. eapply In_split7; [exact P2|exact (P1 eq_refl)|reflexivity]. }
      assert (CL : (3 <= tag <= 8 -> tag <> 7) -> clean (tag :: met0) img).
      { intros Q. destruct H3 as [A1 A2]. split; [exact A1|]. rewrite mem_cons'. intros O. apply orb_false_iff in O as [_ O]. exact (A2 O). }
      destruct sec.
      + destruct (known_tag tag) eqn:Ek.
        * destruct (admissible tag n (tag :: met0)) eqn:Ea; [|exact I].
          assert (T : 3 <= tag <= 8 /\ base (tag :: met0)).
          { unfold admissible in Ea. unfold base in *. rewrite !mem_cons' in *.
            destruct (Z.eqb_spec tag 3) as [->|]; [cbn; split; [lia|exact H2]|]. destruct (Z.eqb_spec tag 4) as [->|]; [cbn; split; [lia|]; destruct H2 as (A1 & A2 & A3); repeat split; try reflexivity; apply A3; assumption|].
            destruct (Z.eqb_spec tag 5) as [->|]; [cbn in *; split; [lia|]; destruct H2 as (A1 & A2 & A3); repeat split; auto; apply A3; assumption|].
            destruct (Z.eqb_spec tag 6) as [->|]; [cbn in *; split; [lia|]; destruct H2 as (A1 & A2 & A3); repeat split; auto; apply A3; assumption|].
            destruct (Z.eqb_spec tag 7) as [->|]; [cbn in *; split; [lia|]; apply andb_prop in Ea as [Ea _]; apply andb_prop in Ea as [Ea1 Ea2]; destruct H2 as (A1 & A2 & A3); repeat split; auto|].
            destruct (Z.eqb_spec tag 8) as [->|]; [cbn in *; split; [lia|]; exact H2|discriminate]. }
          destruct T as [T1 T2].
          pose proof (body_posts next f met0 img tag (Z.to_nat n) (avail - length rest)%nat (x_init B tag (Z.to_nat n) img) avail Hn H1 H2 T2 H3 S (x_init_inv tag (Z.to_nat n) img T1) K3 T1) as BP.
          destruct (x_body B D next f (tag :: met0) img tag (Z.to_nat n) (avail - length rest) (x_init B tag (Z.to_nat n) img) avail) as [[P|]| |x']; try exact I.
          -- cbn [len_post]. split; [eapply body_post_keep; [exact H1|exact K3|apply x_init_inv; exact T1|exact BP]|]. split; [eauto|]. intros ->.
             destruct BP as (img' & C & _ & _ & K). specialize (K ltac:(lia)). destruct K as (_ & _ & _ & _ & _ & K7). rewrite (proj1 (K7 eq_refl)). apply C. lia.
          -- exact BP.
        * pose proof (skip_posts next f (tag :: met0) img [] n (avail - length rest)%nat avail Hn B2) as SP.
          assert (NT : tag < 1 \/ 9 < tag) by (unfold known_tag in Ek; lia).
          assert (T2 : base (tag :: met0)). { unfold base in *. rewrite !mem_cons'. replace (4 =? tag) with false by lia. replace (5 =? tag) with false by lia. replace (6 =? tag) with false by lia. replace (7 =? tag) with false by lia. exact H2. }
          specialize (SP T2 S (CL ltac:(lia))). destruct (x_skip B D next f (tag :: met0) img [] n (avail - length rest) avail) as [[P|]| |x']; try exact I; [|exact SP].
          cbn [post len_post] in *. split; [|split; [congruence|lia]]. apply (keep_back met0 img img P tag); auto. unfold changes. repeat split; auto.
      + destruct (known_tag tag) eqn:Ek; [specialize (H4 eq_refl); discriminate|].
        assert (NT : tag < 1 \/ 9 < tag) by (unfold known_tag in Ek; lia).
        assert (T2 : base (tag :: met0)). { unfold base in *. rewrite !mem_cons'. replace (4 =? tag) with false by lia. replace (5 =? tag) with false by lia. replace (6 =? tag) with false by lia. replace (7 =? tag) with false by lia. exact H2. }
        rewrite Nat.add_0_r in S. pose proof (Hn (tag :: met0) img (avail - length rest)%nat T2 S (CL ltac:(lia))) as SP.
        destruct (next (tag :: met0) img (avail - length rest)%nat) as [[P|]| |x']; try exact I; [|exact SP].
        cbn [post len_post] in *. split; [|split; [congruence|lia]]. apply (keep_back met0 img img P tag); auto. unfold changes. repeat split; auto.
    - cbn [len_post]. split; [|intros Q; unfold ann; cbn; exact Q]. cbn [xinv]. exists met0. split; [reflexivity|]. split; [exact H1|]. split; [exact H2|]. split; [exact H3|]. split; [exact H4|exact H5].
  Qed.

  Lemma sections_posts avail : (avail <= N)%nat -> forall f, good_next (x_sections B D f avail).
  Proof.
    intros Ha. induction f as [|f IH]; intros met img pos H1 H2 H3; cbn [x_sections]; [exact I|].
    destruct (Nat.ltb_spec pos avail) as [L|L]; [|cbn [post]; split; [cbn [xinv]; auto|intros Q; unfold ann; cbn; exact Q]]. cbv zeta. set (m := nth pos D 0).
    destruct (_ || _); [exact I|]. destruct (negb _) ; [exact I|]. destruct (mem (Z.shiftr m 3) met) eqn:Em; [exact I|]. destruct (negb (Z.land m 7 =? 2) && known_tag (Z.shiftr m 3)) eqn:Ew; [exact I|].
    assert (LP : len_post met img (Z.shiftr m 3) (x_len B D (x_sections B D f avail) f (Z.shiftr m 3 :: met) img (Z.shiftr m 3) (Z.land m 7 =? 2) (S pos) avail)).
    { apply len_posts; auto; [intros K; rewrite K in Ew; destruct (Z.land m 7 =? 2); [reflexivity|discriminate]|]. destruct H2 as (pre & P1 & P2). exists pre. split; [exact P2|]. intros n r E.
      rewrite P1, (skipn_head D pos) by lia. rewrite tags_cons. rewrite E. reflexivity. }
    destruct (x_len _ _ _ _ _ _ _ _ _ _) as [[P|]| |x']; cbn [post len_post] in *; auto.
    - apply LP.
    - destruct LP as [L1 L2]. split; [exact L1|]. intros Q. apply L2, met_ann_cons, Q.
  Qed.

  Lemma head_posts q pos avail : (pos <= avail <= N)%nat -> brun D None q pos N = brun D None decode_header 6 N -> (exists pre, tags D = pre ++ tags (skipn 6 D)) ->
    match x_head B D q pos avail with RMore x' => xinv x' | _ => True end.
  Proof.
    intros Hp E H. unfold x_head. pose proof (brun_stable D None avail N HD ltac:(lia) ltac:(lia) q pos ltac:(lia)) as S. pose proof (brun_pos D None avail HD ltac:(lia) q pos ltac:(lia)) as PP.
    destruct (brun D None q pos avail) as [[|w h version legacy comps g] pos'| |[q' pos']]; [| |exact I|].
    - unfold x_orig. destruct (brun D None decode_original pos' avail) as [|  |[? ?]]; exact I.
    - rewrite S in E. symmetry in E. apply header_end in E; [|exact HD]. destruct H as (pre & H). rewrite E in H.
      pose proof (sections_posts avail ltac:(lia) 16 [9; 2; 1] (pic_start w h version legacy comps g) pos') as SP.
      destruct (x_sections _ _ _ _ _ _ _) as [| |x']; try exact I. apply SP.
      + unfold base. cbn. repeat split; discriminate.
      + exists (pre ++ [2]). rewrite H, <- app_assoc. split; [reflexivity|]. cbn. discriminate.
      + split; [reflexivity|]. reflexivity.
    - cbn [xinv snd] in *. split; [lia|]. split; [congruence|exact H].
  Qed.

  (** All states of the parser. *)
  Lemma run_keeps x avail x' : xinv x -> (x_at B x <= avail <= N)%nat -> x_run B D x avail = RMore x' -> xinv x' /\ (ann x = true -> ann x' = true).
  Proof.
    intros HI Ha E. destruct x as [pos|q pos|q pos|f met img pos|f met img tag sec pos|f met img acc n pos|f met img tag n start s|o pos|]; cbn [x_run x_at] in *.
    - split; [|discriminate]. cbn [xinv] in HI. subst pos. destruct (Nat.leb_spec (0 + 6) avail) as [L|L]; [|injection E as <-; reflexivity].
      destruct (verify_signature (slice D 0 (0 + 6))) eqn:Ev; [|discriminate|discriminate].
      pose proof (head_posts decode_header (0 + 6) avail ltac:(lia) eq_refl) as HP. rewrite E in HP. apply HP.
      exists [1]. unfold verify_signature in Ev. rewrite slice_length in Ev by lia. cbn [Nat.sub Nat.ltb Nat.leb] in Ev. destruct (list_eqb _ _) eqn:El; [|discriminate]. apply list_eqb_eq in El.
      assert (ED : D = signature ++ skipn 6 D). { rewrite <- El. unfold slice. cbn [Nat.sub Nat.add skipn]. rewrite firstn_firstn. cbn [Nat.min]. symmetry. apply firstn_skipn. }
      rewrite ED at 1. unfold signature. cbn [Datatypes.app]. rewrite tags_cons. reflexivity.
    - split; [|discriminate]. destruct HI as (H1 & H2 & H3). pose proof (head_posts q pos avail ltac:(lia) H2 H3) as HP. rewrite E in HP. exact HP.
    - split; [|discriminate]. unfold x_orig in E. destruct (brun D None q pos avail) as [| |[q' pos']]; [discriminate|discriminate|]. injection E as <-. exact I.
    - destruct HI as (H1 & H2 & H3). pose proof (sections_posts avail ltac:(lia) f met img pos H1 H2 H3) as P. rewrite E in P. exact P.
    - destruct HI as (met0 & -> & H1 & H2 & H3 & H4 & H5). pose proof (len_posts (x_sections B D f avail) f met0 img tag sec pos avail (sections_posts avail ltac:(lia) f) Ha H1 H2 H3 H4 H5) as P. rewrite E in P. exact P.
    - destruct HI as (H0 & H1 & H2 & H3). pose proof (skip_posts (x_sections B D f avail) f met img acc n pos avail (sections_posts avail ltac:(lia) f) H0 H1 H2 H3) as P. rewrite E in P. exact P.
    - destruct HI as (met0 & -> & H1 & H2 & H3 & H4 & H5 & H6 & H7 & H8).
      pose proof (body_posts (x_sections B D f avail) f met0 img tag n start s avail (sections_posts avail ltac:(lia) f) H1 H2 H3 H4 H5 H6 H7 H8) as P. rewrite E in P. exact P.
    - discriminate.
    - discriminate.
  Qed.
End Inv.
