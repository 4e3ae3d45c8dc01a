(** The parser with explicit state does what the parser of ContainerModel.v and Decoder.v does. *)
From Verif Require Import Base CodesModel JpegModel EntropyModel LehmerModel QuantModel InternalsModel MetaModel HeaderModel Stream Machine ContainerModel HSecModel CoefModel WordModel Decoder DriverModel OutputModel SerialModel ProgressModel.

Lemma wrun_lift {A C} opt (g : A -> wprog C) : forall (p : eprog A) d,
  wrun opt (wlift p g) d = match erun p d with Some (a, d') => wrun opt (g a) d' | None => WoBad end.
Proof.
  induction p as [a| |q k IH|cs k IH|n k IH]; intros d; cbn [wlift wrun erun]; try reflexivity.
  - destruct (read_bit q d) as [b d']. apply IH.
  - destruct (read_symbol cs d) as [[s d']|]; [apply IH|reflexivity].
  - destruct (read_bits n d) as [v d']. apply IH.
Qed.

Definition gmap {T A} (f : T -> wprog A) (r : gout T A) : wout A :=
  match r with GoDone a d => WoDone a d | GoBad => WoBad | GoMore t d => WoMore (f t) d end.

Lemma gcall_wcall {T A} (f : T -> wprog A) run t0 p n V sub pos avail : p = f t0 -> (forall opt d, wrun opt p d = gmap f (run opt d)) ->
  wcall n V (mkW p sub pos) avail = lift_res (fun '(t, sub, pos) => mkW (f t) sub pos) (fun a => a) (gcall run t0 n V sub pos avail).
Proof.
  intros -> H. unfold wcall, gcall. cbn [w_pos w_prog w_sub]. destruct (Nat.odd n); [reflexivity|]. cbv zeta.
  assert (G : forall last d,
    match wrun last (f t0) d with
    | WoBad => RFail
    | WoDone a d' => if ws_error (d_src d') then RFail else if negb (d_finalize d') then RFail
        else if negb (pos + 2 * (length (bytes_to_words (slice V pos (pos + Nat.min ((avail - pos) / 2 * 2) (n - pos)))) - length (ws_words (d_src d'))) =? n)%nat then RFail
        else RDone a (pos + 2 * (length (bytes_to_words (slice V pos (pos + Nat.min ((avail - pos) / 2 * 2) (n - pos)))) - length (ws_words (d_src d'))))%nat
    | WoMore q d' => if ws_error (d_src d') then RFail else if last then RFail
        else RMore (mkW q (Some d') (pos + 2 * (length (bytes_to_words (slice V pos (pos + Nat.min ((avail - pos) / 2 * 2) (n - pos)))) - length (ws_words (d_src d')))))
    end = lift_res (fun '(t, sub, pos) => mkW (f t) sub pos) (fun a => a)
    match run last d with
    | GoBad => RFail
    | GoDone a d' => if ws_error (d_src d') then RFail else if negb (d_finalize d') then RFail
        else if negb (pos + 2 * (length (bytes_to_words (slice V pos (pos + Nat.min ((avail - pos) / 2 * 2) (n - pos)))) - length (ws_words (d_src d'))) =? n)%nat then RFail
        else RDone a (pos + 2 * (length (bytes_to_words (slice V pos (pos + Nat.min ((avail - pos) / 2 * 2) (n - pos)))) - length (ws_words (d_src d'))))%nat
    | GoMore t d' => if ws_error (d_src d') then RFail else if last then RFail
        else RMore (t, Some d', (pos + 2 * (length (bytes_to_words (slice V pos (pos + Nat.min ((avail - pos) / 2 * 2) (n - pos)))) - length (ws_words (d_src d'))))%nat)
    end).
  { intros last d. rewrite H. destruct (run last d) as [a d'| |t d']; cbn [gmap]; try reflexivity.
    - destruct (ws_error (d_src d')); [reflexivity|]. destruct (negb (d_finalize d')); [reflexivity|]. destruct (negb _); reflexivity.
    - destruct (ws_error (d_src d')); [reflexivity|]. destruct last; reflexivity. }
  destruct sub as [d|]; [apply G|]. destruct (_ || _); [apply G|reflexivity].
Qed.

(** * The programs behind the states *)
Definition dc_prog (c : cfg) (t : dcx) : wprog (list plane * list (list bool)) :=
  wdec_dc (cf_cmap c) (cf_codes c) (cf_ms c) (dx_vs t) (dx_sts t) (dx_planes t) (dx_flags t).
Definition ac_blocks (c : cfg) (flags : list (list bool)) (planes : list plane) (orders : list (list Z)) : wprog (list plane) :=
  wget (omap2 (fun m o => Some (ac_consts m o)) (cf_ms c) orders) (fun aks =>
  wdec_ac (cf_cmap c) (cf_codes c) (cf_legacy c) (cf_ms c) aks flags (visits (cf_ms c)) (map (fun m => ac_init (cm_w m)) (cf_ms c)) planes).
Definition ac_prog (c : cfg) (t : acx) : wprog (list plane) :=
  match t with
  | AOrders n acc flags planes => wdecode_orders n acc (ac_blocks c flags planes)
  | ABlocks aks flags vs sts planes => wdec_ac (cf_cmap c) (cf_codes c) (cf_legacy c) (cf_ms c) aks flags vs sts planes
  end.

Lemma xrun_dc_ok c opt : forall vs sts planes flags d,
  wrun opt (wdec_dc (cf_cmap c) (cf_codes c) (cf_ms c) vs sts planes flags) d = gmap (dc_prog c) (xrun_dc c vs sts planes flags opt d).
Proof.
  induction vs as [|[[i y] x] rest IH]; intros sts planes flags d; [reflexivity|]. cbn [xrun_dc]. cbn [wdec_dc wrun]. destruct (can_read opt 6 d) eqn:Ec; [|reflexivity].
  destruct (nth_error (cf_ms c) i) as [m|]; cbn [wget wrun]; [|reflexivity]. destruct (nth_error sts i) as [st|]; cbn [wget wrun]; [|reflexivity].
  destruct (nth_error planes i) as [p|]; cbn [wget wrun]; [|reflexivity]. destruct (nth_error flags i) as [fl|]; cbn [wget wrun]; [|reflexivity].
  rewrite wrun_lift. destruct (erun _ d) as [[[[[is_empty sign] absval] st'] d']|]; [|reflexivity].
  destruct (zset fl _ is_empty) as [fl'|]; cbn [wget wrun]; [|reflexivity]. destruct (nth_error p _) as [b|]; cbn [wget wrun]; [|reflexivity]. apply IH.
Qed.
Lemma xrun_ac_ok c opt aks flags : forall vs sts planes d,
  wrun opt (wdec_ac (cf_cmap c) (cf_codes c) (cf_legacy c) (cf_ms c) aks flags vs sts planes) d = gmap (ac_prog c) (xrun_ac c aks flags vs sts planes opt d).
Proof.
  induction vs as [|[[i y] x] rest IH]; intros sts planes d; [reflexivity|].
  remember (wdec_ac (cf_cmap c) (cf_codes c) (cf_legacy c) (cf_ms c) aks flags ((i, y, x) :: rest) sts planes) as w eqn:Ew. pose proof Ew as Ew'. cbn [xrun_ac]. cbn [wdec_ac] in Ew.
  destruct (nth_error (cf_ms c) i) as [m|]; cbn [wget] in Ew; [|subst w; reflexivity]. destruct (nth_error aks i) as [ak|]; cbn [wget] in Ew; [|subst w; reflexivity].
  destruct (nth_error sts i) as [st|]; cbn [wget] in Ew; [|subst w; reflexivity]. destruct (nth_error planes i) as [p|]; cbn [wget] in Ew; [|subst w; reflexivity].
  destruct (nth_error flags i) as [fl|]; cbn [wget] in Ew; [|subst w; reflexivity]. destruct (nth_error p _) as [b|]; cbn [wget] in Ew; [|subst w; reflexivity].
  destruct (nth_error fl _) as [e|]; cbn [wget] in Ew; [|subst w; reflexivity]. cbv zeta in Ew.
  assert (G : wrun opt (wlift (dec_ac_block (cf_cmap c) (cf_codes c) (cf_legacy c) ak m (neighbours (cm_w m) p x y) e b st)
      (fun '(b', st') => wdec_ac (cf_cmap c) (cf_codes c) (cf_legacy c) (cf_ms c) aks flags rest (upd sts i st') (upd planes i (upd p (y * cm_w m + x)%nat b')))) d =
    gmap (ac_prog c) match erun (dec_ac_block (cf_cmap c) (cf_codes c) (cf_legacy c) ak m (neighbours (cm_w m) p x y) e b st) d with
                | Some ((b', st'), d') => xrun_ac c aks flags rest (upd sts i st') (upd planes i (upd p (y * cm_w m + x)%nat b')) opt d'
                | None => GoBad end).
  { rewrite wrun_lift. destruct (erun _ d) as [[[b' st'] d']|]; [|reflexivity]. apply IH. }
  destruct e; cbn [orb].
  - rewrite Ew. exact G.
  - destruct (can_read opt 297 d) eqn:Ec.
    + rewrite Ew. cbn [wrun]. rewrite Ec. exact G.
    + cbn [gmap ac_prog]. rewrite <- Ew', Ew. cbn [wrun]. rewrite Ec. reflexivity.
Qed.
Lemma xrun_orders_ok c opt flags planes : forall n acc d,
  wrun opt (wdecode_orders n acc (ac_blocks c flags planes)) d = gmap (ac_prog c) (xrun_orders c n acc flags planes opt d).
Proof.
  induction n as [|n IH]; intros acc d; cbn [wdecode_orders xrun_orders].
  - unfold ac_blocks. destruct (omap2 _ _ _) as [aks|]; cbn [wget]; [apply xrun_ac_ok|reflexivity].
  - cbn [wrun]. destruct (can_read opt 121 d); [|reflexivity]. rewrite wrun_lift. destruct (erun decode_coeff_order d) as [[o d']|]; [apply IH|reflexivity].
Qed.
Lemma xrun_acx_ok c t opt d : wrun opt (ac_prog c t) d = gmap (ac_prog c) (xrun_acx c t opt d).
Proof. destruct t; cbn [ac_prog xrun_acx]; [apply xrun_orders_ok|apply xrun_ac_ok]. Qed.

(** * Bodies *)
Definition body_of {B} (s : xbody B) : bstate B :=
  match s with
  | XPlain s => s
  | XDC c t sub pos => BSDC (mkW (dc_prog c t) sub pos)
  | XAC c t sub pos => BSAC (mkW (ac_prog c t) sub pos)
  end.
Lemma body_of_init B tag n p : body_of (x_init B tag n p) = body_init B tag n p.
Proof.
  unfold x_init, body_init. destruct (Z.eqb_spec tag 7) as [->|N7]; cbn [Z.eqb Pos.eqb].
  - destruct (metas_of p) as [ms|]; [|reflexivity]. destruct (pi_hist p) as [[[? cmap] codes]|]; reflexivity.
  - destruct (Z.eqb_spec tag 8) as [->|N8]; cbn [Z.eqb Pos.eqb].
    + destruct (metas_of p) as [ms|]; [|reflexivity]. destruct (pi_hist p) as [[[? cmap] codes]|]; [|reflexivity]. destruct (pi_dc p) as [[planes flags]|]; reflexivity.
    + cbn [body_of]. unfold body_init. destruct (tag =? 7) eqn:E7; [lia|]. destruct (tag =? 8) eqn:E8; [lia|]. reflexivity.
Qed.
Lemma x_call_ok B tag n p V s avail : body_call B tag n p V (body_of s) avail = lift_res body_of (fun x => x) (x_call B tag n p V s avail).
Proof.
  destruct s as [s|c t sub pos|c t sub pos]; cbn [body_of x_call].
  - destruct (body_call B tag n p V s avail); reflexivity.
  - cbn [body_call]. rewrite (gcall_wcall (dc_prog c) (xrun_dc c (dx_vs t) (dx_sts t) (dx_planes t) (dx_flags t)) t) by (try reflexivity; intros; apply xrun_dc_ok).
    destruct (gcall _ _ _ _ _ _ _) as [a q| |[[t' sub'] pos']]; reflexivity.
  - cbn [body_call]. rewrite (gcall_wcall (ac_prog c) (xrun_acx c t) t) by (try reflexivity; intros; apply xrun_acx_ok).
    destruct (gcall _ _ _ _ _ _ _) as [a q| |[[t' sub'] pos']]; reflexivity.
Qed.
Lemma body_pos_of {B} (s : xbody B) : body_pos (body_of s) = x_pos s.
Proof. destruct s; reflexivity. Qed.

(** * The stream *)
Section Sim.
  Context (B : brotli) (D : list Z).
  Notation RB := (real_bodies B).
  Notation rest f met img := (mmap OImage (read_sections RB f met img) : mprog (outcome picture)).

  Definition k_head (h : header) : mprog (outcome picture) :=
    match h with
    | HFallback => MB decode_original (fun data => MRet (OOriginal data))
    | HImage w h version legacy comps g => rest 16 [9; 2; 1] (pic_start w h version legacy comps g)
    end.
  Definition k_sec (f : nat) (img : picture) (r : option (Z * Z) * list Z) : mprog (outcome picture) :=
    mmap OImage
    (let met' := snd r in
    match fst r with
    | None => read_sections RB f met' img
    | Some (tag, n) =>
        if known_tag tag then
          if admissible tag n met' then
            MBegin (Z.to_nat n) (bo_call RB tag (Z.to_nat n) img) (bo_pos RB) (bo_init RB tag (Z.to_nat n) img)
              (fun img' => if tag =? 8 then MRet img' else read_sections RB f met' img')
          else MFail
        else MB (BBytes [] n (fun _ => BRet tt)) (fun _ => read_sections RB f met' img)
    end).
  Definition prog_of (x : xstate B) : mprog (outcome picture) :=
    match x with
    | XSig _ => decode_stream RB
    | XHead q _ => MB q k_head
    | XOrig q _ => MB q (fun data => MRet (OOriginal data))
    | XTag f met img _ => rest f met img
    | XLen f met img tag sec _ => MB (if sec then BBase128 (fun n => BRet (Some (tag, n), met)) else BBase128 (fun _ => BRet (None, met))) (k_sec f img)
    | XSkip f met img acc n _ => MB (BBytes acc n (fun _ => BRet tt)) (fun _ => rest f met img)
    | XBody f met img tag n start s =>
        MIn start n (body_call B tag n img) body_pos (body_of s) (fun img' => mmap OImage (if tag =? 8 then MRet img' else read_sections RB f met img'))
    | XDone o _ => MRet o
    | XErr => MFail
    end.
  Definition sim (r : res (xstate B) (outcome picture)) : res (mprog (outcome picture) * nat) (outcome picture) :=
    match r with RDone o q => RDone o q | RFail => RFail | RMore x => RMore (prog_of x, x_at B x) end.

  Definition good_next (f avail : nat) (next : list Z -> picture -> nat -> res (xstate B) (outcome picture)) : Prop :=
    forall met img pos, mrun D (rest f met img) pos avail = sim (next met img pos).

  Lemma x_body_ok f avail next : good_next f avail next -> forall met img tag n start s,
    match body_call B tag n img (section_view D start n) (body_of s) (avail - start)%nat with
    | RDone y q => if (q =? n)%nat then mrun D (mmap OImage (if tag =? 8 then MRet y else read_sections RB f met y)) (start + n) avail else RFail
    | RFail => RFail
    | RMore s' => RMore (MIn start n (body_call B tag n img) body_pos s' (fun img' => mmap OImage (if tag =? 8 then MRet img' else read_sections RB f met img')), (start + body_pos s')%nat)
    end = sim (x_body B D next f met img tag n start s avail).
  Proof.
    intros H met img tag n start s. unfold x_body. rewrite x_call_ok. destruct (x_call B tag n img _ s _) as [y q| |s']; cbn [lift_res].
    - destruct (q =? n)%nat; [|reflexivity]. destruct (tag =? 8); [reflexivity|apply H].
    - reflexivity.
    - cbn [sim prog_of x_at]. rewrite body_pos_of. reflexivity.
  Qed.
  Lemma x_skip_ok f avail next : good_next f avail next -> forall met img acc n pos,
    mrun D (MB (BBytes acc n (fun _ => BRet tt)) (fun _ => rest f met img)) pos avail = sim (x_skip B D next f met img acc n pos avail).
  Proof.
    intros H met img acc n pos. unfold x_skip. cbn [mrun brun]. cbv zeta. destruct (_ <=? 0); [apply H|]. reflexivity.
  Qed.
  Lemma x_len_ok f avail next : good_next f avail next -> forall met img tag sec pos,
    mrun D (prog_of (XLen f met img tag sec pos)) pos avail =
    sim (x_len B D next f met img tag sec pos avail).
  Proof.
    intros H met img tag sec pos. unfold x_len. cbn [prog_of]. destruct sec; cbn [mrun brun].
    - destruct (decode_base128 (slice D pos avail)) as [n r| |]; cbn [brun]; try reflexivity. cbn [brun]. unfold k_sec at 1. cbn [fst snd]. cbv zeta.
      destruct (known_tag tag).
      + destruct (admissible tag n met); [|reflexivity]. cbn [mmap mrun bo_call bo_pos bo_init real_bodies]. rewrite <- body_of_init. apply x_body_ok. exact H.
      + cbn [mmap]. apply x_skip_ok. exact H.
    - destruct (decode_base128 (slice D pos avail)) as [n r| |]; cbn [brun]; try reflexivity. unfold k_sec at 1. cbn [fst snd]. cbv zeta. apply H.
  Qed.
  Lemma x_sections_ok avail : forall f, good_next f avail (x_sections B D f avail).
  Proof.
    induction f as [|f IH]; intros met img pos; [reflexivity|]. cbn [x_sections read_sections mmap]. cbv zeta.
    change (fun a : option (Z * Z) * list Z => mmap OImage match fst a with
      | Some (tag, n) => if known_tag tag then if admissible tag n (snd a) then MBegin (Z.to_nat n) (bo_call RB tag (Z.to_nat n) img) (bo_pos RB) (bo_init RB tag (Z.to_nat n) img)
              (fun img' => if tag =? 8 then MRet img' else read_sections RB f (snd a) img') else MFail else MB (BBytes [] n (fun _ => BRet tt)) (fun _ => read_sections RB f (snd a) img)
      | None => read_sections RB f (snd a) img end) with (k_sec f img).
    unfold parse_section, read_tag. destruct (Nat.ltb_spec pos avail) as [L|L].
    - cbn [mrun brun]. rewrite (proj2 (Nat.ltb_lt _ _) L). set (marker := nth pos D 0). cbv zeta.
      destruct ((Z.shiftr marker 3 =? 0) || (15 <? Z.shiftr marker 3)); [reflexivity|]. destruct (negb ((Z.land marker 7 =? 0) || (Z.land marker 7 =? 2))); [reflexivity|].
      destruct (mem (Z.shiftr marker 3) met); [reflexivity|].
      assert (W : forall q, match brun D None q (S pos) avail with RDone a pos' => mrun D (k_sec f img a) pos' avail | RFail => RFail | RMore (q', pos') => RMore (MB q' (k_sec f img), pos') end = mrun D (MB q (k_sec f img)) (S pos) avail) by reflexivity.
      destruct (Z.land marker 7 =? 2); cbn [negb andb].
      + rewrite W. exact (x_len_ok f avail _ IH (Z.shiftr marker 3 :: met) img (Z.shiftr marker 3) true (S pos)).
      + destruct (known_tag (Z.shiftr marker 3)); [reflexivity|]. rewrite W. exact (x_len_ok f avail _ IH (Z.shiftr marker 3 :: met) img (Z.shiftr marker 3) false (S pos)).
    - cbn [mrun brun]. destruct (Nat.ltb_spec pos avail); [lia|]. reflexivity.
  Qed.
  Lemma x_orig_ok q pos avail : mrun D (MB q (fun data => MRet (OOriginal data))) pos avail = sim (x_orig B D q pos avail).
  Proof. unfold x_orig. cbn [mrun]. destruct (brun D None q pos avail) as [d p| |[q' p]]; reflexivity. Qed.
  Lemma x_head_ok q pos avail : mrun D (MB q k_head) pos avail = sim (x_head B D q pos avail).
  Proof.
    unfold x_head. cbn [mrun]. destruct (brun D None q pos avail) as [h p| |[q' p]]; try reflexivity. destruct h; cbn [k_head]; [apply x_orig_ok|apply x_sections_ok].
  Qed.
  Lemma x_run_ok x avail : x <> XErr -> mrun D (prog_of x) (x_at B x) avail = sim (x_run B D x avail).
  Proof.
    intros NE. destruct x as [pos|q pos|q pos|f met img pos|f met img tag sec pos|f met img acc n pos|f met img tag n start s|o pos|]; cbn [prog_of x_at x_run].
    - unfold decode_stream. cbn [mrun]. destruct (pos + 6 <=? avail)%nat; [|reflexivity]. destruct (verify_signature _); [|reflexivity|reflexivity].
      change (fun h => match h with HFallback => MB decode_original (fun data => MRet (OOriginal data)) | HImage w h0 version legacy comps g => mmap OImage (read_sections RB 16 [9; 2; 1] (bo_start RB w h0 version legacy comps g)) end) with k_head.
      apply x_head_ok.
    - apply x_head_ok.
    - apply x_orig_ok.
    - apply x_sections_ok.
    - apply x_len_ok. apply x_sections_ok.
    - apply x_skip_ok. apply x_sections_ok.
    - cbn [mrun]. apply x_body_ok. apply x_sections_ok.
    - reflexivity.
    - congruence.
  Qed.

  Definition state_of (x : xstate B) : pstate (outcome picture) :=
    match x with XDone o pos => PDone o pos | XErr => PError | _ => PRun (prog_of x) (x_at B x) end.
  Lemma at_of x : state_pos (state_of x) = x_at B x.
  Proof. destruct x; reflexivity. Qed.
  Definition not_final (x : xstate B) : Prop := match x with XDone _ _ | XErr => False | _ => True end.

  (** Suspended states are neither finished nor failed. *)
  Lemma x_more x avail x' : not_final x -> x_run B D x avail = RMore x' -> not_final x'.
  Proof.
    assert (NB : forall (next : list Z -> picture -> nat -> res (xstate B) (outcome picture)), (forall met img pos x', next met img pos = RMore x' -> not_final x') ->
      forall f met img tag n start s x', x_body B D next f met img tag n start s avail = RMore x' -> not_final x').
    { intros next H f met img tag n start s y E. unfold x_body in E. destruct (x_call _ _ _ _ _ _ _) as [i q| |s']; [|discriminate|].
      - destruct (q =? n)%nat; [|discriminate]. destruct (tag =? 8); [discriminate|]. eapply H; exact E.
      - injection E as <-. exact I. }
    assert (NS : forall (next : list Z -> picture -> nat -> res (xstate B) (outcome picture)), (forall met img pos x', next met img pos = RMore x' -> not_final x') ->
      forall f met img acc n pos x', x_skip B D next f met img acc n pos avail = RMore x' -> not_final x').
    { intros next H f met img acc n pos y E. unfold x_skip in E. cbv zeta in E. destruct (_ <=? 0); [eapply H; exact E|]. injection E as <-. exact I. }
    assert (NL : forall (next : list Z -> picture -> nat -> res (xstate B) (outcome picture)), (forall met img pos x', next met img pos = RMore x' -> not_final x') ->
      forall f met img tag sec pos x', x_len B D next f met img tag sec pos avail = RMore x' -> not_final x').
    { intros next H f met img tag sec pos y E. unfold x_len in E. destruct (decode_base128 _) as [n r| |]; [|injection E as <-; exact I|discriminate].
      destruct sec; [|eapply H; exact E]. destruct (known_tag tag); [|eapply NS; [exact H|exact E]]. destruct (admissible _ _ _); [|discriminate]. eapply NB; [exact H|exact E]. }
    assert (NX : forall f met img pos x', x_sections B D f avail met img pos = RMore x' -> not_final x').
    { induction f as [|f IH]; intros met img pos y E; cbn [x_sections] in E; [discriminate|]. destruct (pos <? avail)%nat; [|injection E as <-; exact I]. cbv zeta in E.
      destruct (_ || _); [discriminate|]. destruct (negb _); [discriminate|]. destruct (mem _ _); [discriminate|]. destruct (_ && _); [discriminate|]. eapply NL; [exact IH|exact E]. }
    assert (NO : forall q pos y, x_orig B D q pos avail = RMore y -> not_final y).
    { intros q pos y E. unfold x_orig in E. destruct (brun _ _ _ _ _) as [? ?| |[? ?]]; [discriminate|discriminate|]. injection E as <-. exact I. }
    assert (NH : forall q pos y, x_head B D q pos avail = RMore y -> not_final y).
    { intros q pos y E. unfold x_head in E. destruct (brun _ _ _ _ _) as [[|] ?| |[? ?]]; [eapply NO; exact E|eapply NX; exact E|discriminate|]. injection E as <-. exact I. }
    intros NF E. destruct x; cbn [x_run] in E; try contradiction.
    - destruct (_ <=? _)%nat; [|injection E as <-; exact I]. destruct (verify_signature _); try discriminate. eapply NH; exact E.
    - eapply NH; exact E.
    - eapply NO; exact E.
    - eapply NX; exact E.
    - eapply NL; [exact (NX f)|exact E].
    - eapply NS; [exact (NX f)|exact E].
    - eapply NB; [exact (NX f)|exact E].
  Qed.

  Lemma x_process_ok x avail : do_process D (state_of x) avail = let '(r, x') := x_process B D x avail in (r, state_of x').
  Proof.
    destruct x as [pos|q pos|q pos|f met img pos|f met img tag sec pos|f met img acc n pos|f met img tag n start s|o pos|] eqn:Ex;
      try (rewrite <- Ex; assert (NE : x <> XErr) by congruence; assert (NF : not_final x) by (subst x; exact I);
        replace (state_of x) with (PRun (prog_of x) (x_at B x)) by (subst x; reflexivity);
        unfold x_process; unfold do_process; rewrite (x_run_ok x avail NE);
        pose proof (x_more x avail) as M;
        replace (match x with XErr => (StInvalid, XErr) | _ => match x_run B D x avail with RDone o q => if (q =? avail)%nat then (StOk, XDone o q) else (StInvalid, XErr) | RFail => (StInvalid, XErr) | RMore x' => (StNeed, x') end end)
          with (match x_run B D x avail with RDone o q => if (q =? avail)%nat then (StOk, XDone o q) else (StInvalid, XErr) | RFail => (StInvalid, XErr) | RMore x' => (StNeed, x') end) by (subst x; reflexivity);
        destruct (x_run B D x avail) as [o q0| |x']; cbn [sim];
        [unfold finish; destruct (q0 =? avail)%nat; reflexivity|reflexivity|specialize (M _ NF eq_refl); destruct x'; try contradiction; reflexivity]).
    - unfold x_process. cbn [state_of do_process x_run]. unfold finish. destruct (pos =? avail)%nat; reflexivity.
    - reflexivity.
  Qed.

  Notation XP := (x_parser B D).
  Notation SP := (stream_parser (outcome picture) D).
  Lemma run_of x w : pa_run SP (state_of x) w = let '(r, c, x') := pa_run XP x w in (r, c, state_of x').
  Proof.
    cbn [pa_run stream_parser x_parser]. rewrite at_of. destruct (list_eqb _ _); [|reflexivity]. rewrite x_process_ok. destruct (x_process B D x _) as [r x']. rewrite at_of. reflexivity.
  Qed.
  Lemma failed_of x : pa_failed SP (state_of x) = pa_failed XP x.
  Proof. destruct x; reflexivity. Qed.
  Definition drv_of (d : DriverModel.dstate XP) : DriverModel.dstate SP := @DriverModel.mkD SP (d_buf d) (state_of (d_st d)).
  Definition res_of (r : dresult XP) : dresult SP := match r with Some (st, c, d) => Some (st, c, drv_of d) | None => None end.
  Lemma external_of x ext p : drive_external SP (state_of x) ext p = res_of (drive_external XP x ext p).
  Proof.
    unfold drive_external. rewrite run_of. destruct (pa_run XP x (skipn p ext)) as [[r c] x']. destruct r; try reflexivity. destruct (store _); reflexivity.
  Qed.
  Lemma drive_of d ext : drive SP (drv_of d) ext = res_of (drive XP d ext).
  Proof.
    unfold drive. cbn [d_st d_buf drv_of]. rewrite failed_of. destruct (pa_failed XP (d_st d)); [reflexivity|]. destruct (d_buf d) as [|b0 bt]; [apply external_of|].
    destruct (store ((b0 :: bt) ++ firstn read_ahead ext)) as [w|]; [|reflexivity]. unfold obind; cbv beta iota. rewrite run_of. destruct (pa_run XP (d_st d) w) as [[r c] x'].
    destruct (length (b0 :: bt) <=? c)%nat; destruct r; try reflexivity. apply external_of.
  Qed.
End Sim.
