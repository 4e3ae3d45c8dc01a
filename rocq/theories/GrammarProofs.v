(** What an accepted stream looks like. *)
From Verif Require Import Base CodesModel CodesProofs BitModel BitProofs Stream InternalsProofs InternalsProofs3 Machine HeaderModel HeaderProofs PropsHeader ContainerModel DriverModel DriverProofs.

(** ** Specification: messages on the wire *)
Inductive wire := WValue (tag v : Z) | WSection (tag : Z) (payload : list Z).
Definition wire_tag (w : wire) : Z := match w with WValue t _ => t | WSection t _ => t end.
(** A value is its marker and a Base128 number, a section its marker, the length of
    the payload as a Base128 number, and the payload. *)
Definition on_wire (w : wire) (bs : list Z) : Prop :=
  match w with
  | WValue t v => exists b, bs = t * 8 :: b /\ decode_base128 b = BOk v []
  | WSection t p => exists b, bs = (t * 8 + 2) :: b ++ p /\ decode_base128 b = BOk (Z.of_nat (length p)) []
  end.

Definition before (ws : list wire) (t1 t2 : Z) : Prop :=
  forall a p b, ws = a ++ WSection t2 p :: b -> exists p1, In (WSection t1 p1) a.

(** Everything after the header of a compressed image. *)
Record grammar (ws : list wire) : Prop := {
  gr_once : NoDup (map wire_tag ws);
  gr_tags : Forall (fun w => 1 <= wire_tag w <= 15 /\ ~ In (wire_tag w) [1; 2; 9]) ws;
  gr_values : forall t v, In (WValue t v) ws -> 10 <= t;
  gr_internals_quant : before ws 4 5;
  gr_internals_hist : before ws 4 6;
  gr_quant_dc : before ws 5 7;
  gr_hist_dc : before ws 6 7;
  gr_dc_ac : before ws 7 8;
  gr_even : forall t p, In (WSection t p) ws -> t = 7 \/ t = 8 -> Nat.even (length p) = true;
  gr_last : exists a p, ws = a ++ [WSection 8 p] }.

Lemma decode_base128_used l v rest : bytes l -> decode_base128 l = BOk v rest ->
  exists used, l = used ++ rest /\ decode_base128 used = BOk v [] /\ 0 <= v < 2 ^ 63.
Proof.
  intros Hb E. destruct (decode_base128_ok _ _ _ Hb E) as (H1 & _). destruct (decode_base128_loop_used _ _ _ _ _ _ E) as (u & H2 & H3).
  exists u. auto.
Qed.

(** ** Inversion of the byte parsers *)
Lemma bfull_read_tag {A} (k : Z -> bool -> list Z -> bprog A) met pos l x q r : bytes l -> bfull (read_tag met k) pos l = Some (x, q, r) ->
  exists tag (sec : bool) l', l = (tag * 8 + (if sec then 2 else 0)) :: l' /\ 1 <= tag <= 15 /\ mem tag met = false /\
    bfull (k tag sec (tag :: met)) (S pos) l' = Some (x, q, r).
Proof.
  intros Hb E. unfold read_tag in E. cbn [bfull] in E. destruct l as [|m l']; [discriminate|].
  assert (Hm : 0 <= m < 256) by exact (Forall_inv Hb). cbv zeta in E.
  change 7 with (Z.ones 3) in E. rewrite Z.land_ones in E by lia. rewrite Z.shiftr_div_pow2 in E by lia. change (2 ^ 3) with 8 in E.
  destruct ((m / 8 =? 0) || (15 <? m / 8)) eqn:E1; [cbn [bfull] in E; discriminate|].
  destruct (negb ((m mod 8 =? 0) || (m mod 8 =? 2))) eqn:E2; [cbn [bfull] in E; discriminate|].
  destruct (mem (m / 8) met) eqn:E3; [cbn [bfull] in E; discriminate|].
  exists (m / 8), (m mod 8 =? 2), l'. assert (0 <= m / 8) by dlia. split.
  - f_equal. destruct (Z.eqb_spec (m mod 8) 2) as [e|e]; [dlia|]. assert (m mod 8 = 0) by lia. dlia.
  - split; [lia|]. split; [exact E3|exact E].
Qed.

Lemma bytes_tl b l : bytes (b :: l) -> bytes l.
Proof. intros H. exact (Forall_inv_tail H). Qed.
Lemma bytes_app_r a b : bytes (a ++ b) -> bytes b.
Proof. intros H. apply Forall_app in H. apply H. Qed.

Lemma bfull_base128_inv {A} (k : Z -> bprog A) pos l x q r : bytes l -> bfull (BBase128 k) pos l = Some (x, q, r) ->
  exists b v l', l = b ++ l' /\ decode_base128 b = BOk v [] /\ 0 <= v < 2 ^ 63 /\ bfull (k v) (pos + length b) l' = Some (x, q, r).
Proof.
  intros Hb E. cbn [bfull] in E. destruct (decode_base128 l) as [v rest| |] eqn:Ed; try discriminate.
  destruct (decode_base128_used _ _ _ Hb Ed) as (u & -> & H1 & H2). exists u, v, rest. split; [reflexivity|]. split; [exact H1|]. split; [exact H2|].
  rewrite app_length in E. replace (length u + length rest - length rest)%nat with (length u) in E by lia. exact E.
Qed.

(** The message read by ParseSection. *)
Lemma parse_section_inv met pos l o met' q r : bytes l -> bfull (parse_section met) pos l = Some ((o, met'), q, r) ->
  exists tag b, 1 <= tag <= 15 /\ mem tag met = false /\ met' = tag :: met /\ q = (pos + 1 + length b)%nat /\
    match o with
    | None => 10 <= tag /\ exists v, l = tag * 8 :: b ++ r /\ decode_base128 b = BOk v []
    | Some (t, n) => t = tag /\ l = (tag * 8 + 2) :: b ++ r /\ decode_base128 b = BOk n [] /\ 0 <= n < 2 ^ 63
    end.
Proof.
  intros Hb E. unfold parse_section in E. apply bfull_read_tag in E; [|exact Hb]. destruct E as (tag & sec & l' & -> & H1 & H2 & E).
  apply bytes_tl in Hb. cbv beta in E. destruct sec.
  - apply bfull_base128_inv in E; [|exact Hb]. destruct E as (b & v & l'' & -> & H3 & H4 & E). cbn [bfull] in E.
    apply some_inj in E. injection E as <- <- <- <-. exists tag, b. split; [exact H1|]. split; [exact H2|]. split; [reflexivity|]. split; [lia|]. auto.
  - destruct (known_tag tag) eqn:K; [discriminate|]. unfold known_tag in K.
    apply bfull_base128_inv in E; [|exact Hb]. destruct E as (b & v & l'' & -> & H3 & H4 & E). cbn [bfull] in E.
    apply some_inj in E. injection E as <- <- <- <-. exists tag, b. split; [exact H1|]. split; [exact H2|]. split; [reflexivity|]. split; [lia|].
    split; [lia|]. exists v. rewrite Z.add_0_r. auto.
Qed.

(** ** Section by section *)
(** The sections are well behaved: they leave fewer than 600 bytes unread when they
    need more, never run past the visible bytes, and can be suspended anywhere.  [Ok met img] is what
    they rely on and guarantee about the image under construction, [met] being the tags met so far. *)
Definition bodies_laws (B : bodies) (Ok : list Z -> bo_img B -> Prop) : Prop :=
  (forall w h version legacy comps g, header_valid (HImage w h version legacy comps g) -> Ok [9; 2; 1] (bo_start B w h version legacy comps g)) /\
  (forall tag met img, known_tag tag = false -> Ok met img -> Ok (tag :: met) img) /\
  forall D start tag n met img, bytes D -> mem tag met = false -> known_tag tag = true -> admissible tag (Z.of_nat n) (tag :: met) = true ->
    Ok met img -> exists I,
    body_laws read_ahead n (bo_call B tag n img) (bo_pos B) (section_view D start n) I (Ok (tag :: met)) /\ I (bo_init B tag n img) 0%nat.
Definition good_bodies (B : bodies) : Prop := exists Ok, bodies_laws B Ok.

Fixpoint wf (met : list Z) (ws : list wire) : Prop :=
  match ws with
  | [] => False
  | w :: r =>
      1 <= wire_tag w <= 15 /\ mem (wire_tag w) met = false /\
      match w with
      | WValue t _ => 10 <= t /\ wf (t :: met) r
      | WSection t p =>
          if known_tag t then
            admissible t (Z.of_nat (length p)) (t :: met) = true /\ (if t =? 8 then r = [] else wf (t :: met) r)
          else wf (t :: met) r
      end
  end.

Lemma mrun_MB {X A} D (p : bprog A) (k : A -> mprog X) pos x q : bytes D -> (pos <= length D)%nat ->
  mrun D (MB p k) pos (length D) = RDone x q ->
  exists a pos', bfull p pos (skipn pos D) = Some (a, pos', skipn pos' D) /\ (pos <= pos' <= length D)%nat /\ mrun D (k a) pos' (length D) = RDone x q.
Proof.
  intros Hb Hp E. cbn [mrun] in E. pose proof (brun_bfull D Hb p pos _ eq_refl Hp) as F.
  destruct (bfull p pos (skipn pos D)) as [[[a pos'] r]|].
  - destruct F as (F1 & F2 & F3). rewrite F1 in E. exists a, pos'. rewrite F2. auto.
  - destruct (brun D None p pos (length D)) as [a pos'| |[? ?]]; try discriminate. destruct (F _ _ eq_refl).
Qed.

Lemma bfull_ball0 {A} (P : A -> Prop) D : bytes D -> forall (p : bprog A) pos x pos' r, (pos <= length D)%nat -> ball0 P p ->
  bfull p pos (skipn pos D) = Some (x, pos', r) -> P x.
Proof.
  intros Hb p pos x pos' r Hp H E. pose proof (brun_bfull D Hb p pos _ eq_refl Hp) as F. rewrite E in F. destruct F as (F & _).
  pose proof (brun_ball0 P D None (length D) Hb (le_n _) p pos Hp H) as G. rewrite F in G. exact G.
Qed.

Lemma skipn_bytes D n : bytes D -> bytes (skipn n D).
Proof. intros H. rewrite <- (firstn_skipn n D) in H. apply Forall_app in H. apply H. Qed.

Lemma read_sections_inv B Ok D : bodies_laws B Ok -> bytes D -> forall fuel met img pos img' q, Ok met img -> (pos <= length D)%nat ->
  mrun D (read_sections B fuel met img) pos (length D) = RDone img' q ->
  (exists ws bss, Forall2 on_wire ws bss /\ skipn pos D = concat bss ++ skipn q D /\ (pos <= q <= length D)%nat /\ wf met ws) /\
  exists met1 n1, admissible 8 n1 (8 :: met1) = true /\ Ok (8 :: met1) img'.
Proof.
  intros (_ & GU & GB) Hb. induction fuel as [|f IH]; intros met img pos img' q Hok Hp E; [discriminate|].
  cbn [read_sections] in E. apply mrun_MB in E; [|exact Hb|exact Hp]. destruct E as ([o met'] & pos1 & F & Hp1 & E).
  apply parse_section_inv in F; [|apply skipn_bytes; exact Hb]. destruct F as (tag & b & H1 & H2 & -> & Q1 & F). cbn [fst snd] in E.
  destruct o as [[t n]|].
  - destruct F as (-> & F & H3 & H4). destruct (known_tag tag) eqn:K.
    + destruct (admissible tag n (tag :: met)) eqn:Ad; [|discriminate]. cbn [mrun] in E.
      destruct (GB D pos1 tag (Z.to_nat n) met img Hb H2 K ltac:(rewrite Z2Nat.id by lia; exact Ad) Hok) as (I & L & I0). pose proof (section_view_length D pos1 (Z.to_nat n)) as SL.
      destruct (bo_call B tag (Z.to_nat n) img (section_view D pos1 (Z.to_nat n)) _ (length D - pos1)) as [y c| |] eqn:Ec; try discriminate.
      pose proof (bl_pos _ _ _ _ _ _ _ L _ 0%nat (length D - pos1)%nat y c I0 ltac:(lia) Ec) as Hc.
      destruct (Nat.eqb_spec c (Z.to_nat n)) as [->|]; [|discriminate].
      assert (PL : length (slice D pos1 (pos1 + Z.to_nat n)) = Z.to_nat n) by (rewrite slice_len; lia).
      assert (SK : skipn pos1 D = slice D pos1 (pos1 + Z.to_nat n) ++ skipn (pos1 + Z.to_nat n) D).
      { unfold slice. replace (pos1 + Z.to_nat n - pos1)%nat with (Z.to_nat n) by lia. rewrite Nat.add_comm, <- skipn_add. symmetry. apply firstn_skipn. }
      assert (W : on_wire (WSection tag (slice D pos1 (pos1 + Z.to_nat n))) ((tag * 8 + 2) :: b ++ slice D pos1 (pos1 + Z.to_nat n))).
      { exists b. rewrite PL, Z2Nat.id by lia. auto. }
      destruct (Z.eqb_spec tag 8) as [->|Ht].
      * cbn [mrun] in E. apply rdone_inj in E as [<- <-].
        split; [|exists met, n; split; [exact Ad|exact (bl_out _ _ _ _ _ _ _ L _ 0%nat (length D - pos1)%nat _ _ I0 ltac:(lia) Ec)]].
        eexists [_], [_]. split; [constructor; [exact W|constructor]|]. split; [|split; [lia|]].
        -- rewrite F, SK. cbn [concat]. rewrite app_nil_r. cbn [Datatypes.app]. rewrite <- app_assoc. reflexivity.
        -- cbn [wf wire_tag]. split; [exact H1|]. split; [exact H2|]. rewrite K, PL, Z2Nat.id by lia. split; [exact Ad|reflexivity].
      * destruct (IH (tag :: met) y (pos1 + Z.to_nat n)%nat img' q (bl_out _ _ _ _ _ _ _ L _ 0%nat (length D - pos1)%nat _ _ I0 ltac:(lia) Ec) ltac:(lia) E) as ((ws & bss & I1 & I2 & I3 & I4) & I5). split; [|exact I5].
        eexists (_ :: ws), (_ :: bss). split; [constructor; [exact W|exact I1]|]. split; [|split; [lia|]].
        -- rewrite F, SK, I2. cbn [concat]. cbn [Datatypes.app]. rewrite <- !app_assoc. reflexivity.
        -- cbn [wf wire_tag]. split; [exact H1|]. split; [exact H2|]. rewrite K, PL, Z2Nat.id by lia. split; [exact Ad|].
           destruct (Z.eqb_spec tag 8); [contradiction|exact I4].
    + apply mrun_MB in E; [|exact Hb|lia]. destruct E as ([] & pos2 & F2 & Hp2 & E). cbn [bfull] in F2.
      destruct (Z.leb_spec n (Z.of_nat (length (skipn pos1 D)))) as [Hn|]; [|discriminate]. apply some_inj in F2. injection F2 as <- F3. rewrite skipn_length in Hn.
      assert (PL : length (slice D pos1 (pos1 + Z.to_nat n)) = Z.to_nat n) by (rewrite slice_len; lia).
      assert (SK : skipn pos1 D = slice D pos1 (pos1 + Z.to_nat n) ++ skipn (pos1 + Z.to_nat n) D).
      { unfold slice. replace (pos1 + Z.to_nat n - pos1)%nat with (Z.to_nat n) by lia. rewrite Nat.add_comm, <- skipn_add. symmetry. apply firstn_skipn. }
      destruct (IH (tag :: met) img (pos1 + Z.to_nat n)%nat img' q (GU tag met img K Hok) ltac:(lia) E) as ((ws & bss & I1 & I2 & I3 & I4) & I5). split; [|exact I5].
      eexists (WSection tag (slice D pos1 (pos1 + Z.to_nat n)) :: ws), (((tag * 8 + 2) :: b ++ slice D pos1 (pos1 + Z.to_nat n)) :: bss).
      split; [|split; [|split; [lia|]]].
      * constructor; [|exact I1]. exists b. rewrite PL, Z2Nat.id by lia. auto.
      * rewrite F, SK, I2. cbn [concat Datatypes.app]. rewrite <- !app_assoc. reflexivity.
      * cbn [wf wire_tag]. rewrite K. auto.
  - destruct F as (F1 & v & F2 & F3). destruct (IH (tag :: met) img pos1 img' q (GU tag met img ltac:(unfold known_tag; lia) Hok) ltac:(lia) E) as ((ws & bss & I1 & I2 & I3 & I4) & I5). split; [|exact I5].
    eexists (WValue tag v :: ws), ((tag * 8 :: b) :: bss). split; [|split; [|split; [lia|]]].
    + constructor; [|exact I1]. exists b. auto.
    + rewrite F2, I2. cbn [concat Datatypes.app]. rewrite <- app_assoc. reflexivity.
    + cbn [wf wire_tag]. auto.
Qed.

(** ** The declarative grammar *)
Lemma wf_tags met ws : wf met ws -> NoDup (map wire_tag ws) /\ Forall (fun w => 1 <= wire_tag w <= 15 /\ ~ In (wire_tag w) met) ws.
Proof.
  revert met. induction ws as [|w r IH]; intros met H; [destruct H|]. cbn [wf] in H. destruct H as (H1 & H2 & H3).
  assert (Hn : ~ In (wire_tag w) met) by (intros C; apply mem_In in C; congruence).
  assert (Hr : r = [] \/ wf (wire_tag w :: met) r).
  { destruct w as [t v|t p]; cbn [wire_tag] in *; [right; tauto|]. destruct (known_tag t); [|right; exact H3]. destruct (t =? 8); tauto. }
  destruct Hr as [->|Hr].
  - split; [constructor; [cbn; tauto|constructor]|]. constructor; [auto|constructor].
  - destruct (IH _ Hr) as [I1 I2]. split.
    + cbn [map]. constructor; [|exact I1]. intros C. apply in_map_iff in C as (w' & C1 & C2).
      rewrite Forall_forall in I2. destruct (I2 w' C2) as [_ I3]. apply I3. left. congruence.
    + constructor; [auto|]. eapply Forall_impl; [|exact I2]. cbv beta. intros w' [J1 J2]. split; [exact J1|]. intros C. apply J2. right. exact C.
Qed.

Lemma wf_split met : forall a w b, wf met (a ++ w :: b) -> exists met', wf met' (w :: b) /\ (forall t, In t met' <-> In t (map wire_tag a) \/ In t met) /\
  ((exists p, w = WSection 8 p) -> b = []) /\ (forall t v, In (WValue t v) a -> 10 <= t).
Proof.
  intros a. revert met. induction a as [|x a IH]; intros met w b H; cbn [Datatypes.app] in H.
  - exists met. split; [exact H|]. split; [intros t; cbn; tauto|]. split; [|intros t v []]. intros (p & ->). cbn [wf wire_tag] in H. destruct H as (_ & _ & _ & H). exact H.
  - cbn [wf] in H. destruct H as (H1 & H2 & H3).
    assert (Hx : wf (wire_tag x :: met) (a ++ w :: b) /\ (forall t v, x = WValue t v -> 10 <= t)).
    { destruct x as [t v|t p]; cbn [wire_tag] in *; [split; [tauto|intros ? ? E; injection E as <- <-; tauto]|]. split; [|intros ? ? E; discriminate].
      destruct (known_tag t); [|exact H3]. destruct (t =? 8); [|tauto]. destruct H3 as [_ H3]. destruct a; discriminate. }
    destruct Hx as [Hx Hv]. destruct (IH _ _ _ Hx) as (met' & I1 & I2 & I3 & I4). exists met'. split; [exact I1|]. split; [|split; [exact I3|]].
    + intros t. rewrite I2. cbn [map In]. split; [intros [C|[C|C]]|intros [[C|C]|C]]; auto.
    + intros t v [C|C]; [exact (Hv _ _ C)|exact (I4 _ _ C)].
Qed.

Lemma wf_before met ws t1 t2 : wf met ws -> ~ In t1 met -> 1 <= t1 <= 9 -> 1 <= t2 <= 9 ->
  (forall n m, admissible t2 n m = true -> mem t1 m = true) -> t1 <> t2 -> before ws t1 t2.
Proof.
  intros W Hn Ht1 Ht2 Ha Hd a p b ->. destruct (wf_split _ _ _ _ W) as (met' & I1 & I2 & _ & I4).
  cbn [wf wire_tag] in I1. destruct I1 as (_ & _ & I1). replace (known_tag t2) with true in I1 by (unfold known_tag; lia).
  destruct I1 as [I1 _]. apply Ha in I1. apply mem_In in I1. destruct I1 as [C|I1]; [congruence|].
  apply I2 in I1. destruct I1 as [I1|I1]; [|contradiction]. apply in_map_iff in I1 as (w & C1 & C2).
  destruct w as [t v|t q]; cbn [wire_tag] in C1; subst t; [pose proof (I4 _ _ C2); lia|]. exists q. exact C2.
Qed.

Lemma wf_last met ws : wf met ws -> exists a p, ws = a ++ [WSection 8 p].
Proof.
  revert met. induction ws as [|w r IH]; intros met H; [destruct H|]. cbn [wf] in H. destruct H as (H1 & H2 & H3).
  assert (C : (exists p, w = WSection 8 p /\ r = []) \/ wf (wire_tag w :: met) r).
  { destruct w as [t v|t p]; cbn [wire_tag] in *; [right; tauto|]. destruct (known_tag t); [|right; exact H3].
    destruct (Z.eqb_spec t 8) as [->|]; [|right; tauto]. left. exists p. tauto. }
  destruct C as [(p & -> & ->)|C]; [exists [], p; reflexivity|]. destruct (IH _ C) as (a & p & ->). exists (w :: a), p. reflexivity.
Qed.

Lemma wf_grammar ws : wf [9; 2; 1] ws -> grammar ws.
Proof.
  intros W. destruct (wf_tags _ _ W) as [T1 T2]. constructor.
  - exact T1.
  - eapply Forall_impl; [|exact T2]. cbv beta. cbn [In]. intros w [H1 H2]. split; [exact H1|]. tauto.
  - intros t v C. apply in_split in C as (a & b & ->). destruct (wf_split _ _ _ _ W) as (m & I1 & _). cbn [wf wire_tag] in I1. tauto.
  - apply (wf_before _ _ 4 5 W); try lia; [cbn; lia|]. intros n m E. exact E.
  - apply (wf_before _ _ 4 6 W); try lia; [cbn; lia|]. intros n m E. exact E.
  - apply (wf_before _ _ 5 7 W); try lia; [cbn; lia|]. intros n m E. unfold admissible in E. cbn [Z.eqb Pos.eqb] in E. apply andb_prop in E as [E _]. apply andb_prop in E as [_ E]. exact E.
  - apply (wf_before _ _ 6 7 W); try lia; [cbn; lia|]. intros n m E. unfold admissible in E. cbn [Z.eqb Pos.eqb] in E. apply andb_prop in E as [E _]. apply andb_prop in E as [E _]. exact E.
  - apply (wf_before _ _ 7 8 W); try lia; [cbn; lia|]. intros n m E. unfold admissible in E. cbn [Z.eqb Pos.eqb] in E. apply andb_prop in E as [E _]. exact E.
  - intros t p C Ht. apply in_split in C as (a & b & ->). destruct (wf_split _ _ _ _ W) as (m & I1 & _). cbn [wf wire_tag] in I1.
    destruct I1 as (_ & _ & I1). replace (known_tag t) with true in I1 by (unfold known_tag; lia). destruct I1 as [I1 _]. unfold admissible in I1.
    assert (Ev : Z.even (Z.of_nat (length p)) = true).
    { destruct Ht as [-> | ->]; cbn [Z.eqb Pos.eqb] in I1; apply andb_prop in I1 as [_ I1]; exact I1. }
    rewrite <- Ev. clear. induction (length p) as [|n IH]; [reflexivity|]. rewrite Nat.even_succ, Nat2Z.inj_succ, Z.even_succ.
    rewrite <- Nat.negb_even, <- Z.negb_even, IH. reflexivity.
  - apply wf_last with (1 := W).
Qed.

(** ** The header is one section *)
Lemma header_items_inv send : forall fuel met vals pos l h q r, bytes l -> bfull (header_items fuel send met vals) pos l = Some (h, q, r) ->
  Z.of_nat q = send /\ exists p, l = p ++ r /\ q = (pos + length p)%nat.
Proof.
  induction fuel as [|f IH]; intros met vals pos l h q r Hb E.
  - cbn [header_items bfull] in E. destruct (Z.eqb_spec (Z.of_nat pos) send); [|discriminate].
    destruct (header_finale met vals); [|discriminate]. cbn [bfull] in E. apply some_inj in E. injection E as _ <- <-. split; [assumption|]. exists []. cbn. split; [reflexivity|lia].
  - rewrite header_items_S in E. cbn [bfull] in E. destruct (Z.eqb_spec (Z.of_nat pos) send).
    { destruct (header_finale met vals); [|discriminate]. cbn [bfull] in E. apply some_inj in E. injection E as _ <- <-. split; [assumption|]. exists []. cbn. split; [reflexivity|lia]. }
    apply bfull_read_tag in E; [|exact Hb]. destruct E as (tag & sec & l' & -> & _ & _ & E). apply bytes_tl in Hb. cbv beta in E. destruct sec.
    + apply bfull_base128_inv in E; [|exact Hb]. destruct E as (b & v & l'' & -> & _ & Hv & E). apply bytes_app_r in Hb. cbn [bfull] in E.
      destruct (Z.leb_spec v (Z.of_nat (length l''))); [|discriminate]. apply IH in E; [|apply skipn_bytes; exact Hb].
      destruct E as (E1 & p & E2 & E3). split; [exact E1|]. exists ((tag * 8 + 2) :: b ++ firstn (Z.to_nat v) l'' ++ p). split.
      * cbn [Datatypes.app]. f_equal. rewrite <- !app_assoc. f_equal. rewrite <- E2. symmetry. apply firstn_skipn.
      * cbn [length]. rewrite !app_length, firstn_length. lia.
    + apply bfull_base128_inv in E; [|exact Hb]. destruct E as (b & v & l'' & -> & _ & Hv & E). apply bytes_app_r in Hb.
      apply IH in E; [|exact Hb]. destruct E as (E1 & p & -> & E3). split; [exact E1|]. exists ((tag * 8 + 0) :: b ++ p). split.
      * cbn [Datatypes.app]. f_equal. rewrite <- !app_assoc. reflexivity.
      * cbn [length]. rewrite !app_length. lia.
Qed.

Lemma decode_header_inv pos l h q r : bytes l -> bfull decode_header pos l = Some (h, q, r) ->
  exists p bs, on_wire (WSection 2 p) bs /\ l = bs ++ r.
Proof.
  intros Hb E. unfold decode_header in E. apply bfull_read_tag in E; [|exact Hb]. destruct E as (tag & sec & l' & -> & _ & _ & E).
  apply bytes_tl in Hb. cbv beta in E. destruct (Z.eqb_spec tag 2) as [->|]; cbn [negb orb] in E; [|discriminate]. destruct sec; cbn [negb] in E; [|discriminate].
  apply bfull_base128_inv in E; [|exact Hb]. destruct E as (b & v & l'' & -> & H1 & Hv & E). apply bytes_app_r in Hb. cbn [bfull] in E.
  apply header_items_inv in E; [|exact Hb]. destruct E as (E1 & p & -> & E3).
  exists p, ((2 * 8 + 2) :: b ++ p). split; [|cbn [Datatypes.app]; rewrite <- app_assoc; reflexivity].
  exists b. split; [reflexivity|]. rewrite H1. f_equal. lia.
Qed.

Lemma decode_original_inv pos l d q r : bytes l -> bfull decode_original pos l = Some (d, q, r) ->
  exists bs, on_wire (WSection 9 d) bs /\ l = bs ++ r.
Proof.
  intros Hb E. unfold decode_original in E. apply bfull_read_tag in E; [|exact Hb]. destruct E as (tag & sec & l' & -> & _ & _ & E).
  apply bytes_tl in Hb. cbv beta in E. destruct (Z.eqb_spec tag 9) as [->|]; cbn [negb orb] in E; [|discriminate]. destruct sec; cbn [negb] in E; [|discriminate].
  apply bfull_base128_inv in E; [|exact Hb]. destruct E as (b & v & l'' & -> & H1 & Hv & E). cbn [bfull] in E.
  destruct (Z.leb_spec v (Z.of_nat (length l''))); [|discriminate]. apply some_inj in E. injection E as <- <- <-.
  exists ((9 * 8 + 2) :: b ++ firstn (Z.to_nat v) l''). split.
  - exists b. split; [reflexivity|]. rewrite H1. f_equal. rewrite firstn_length. lia.
  - cbn [Datatypes.app]. rewrite <- app_assoc, firstn_skipn. reflexivity.
Qed.

Lemma mrun_mmap {X Y} (f : X -> Y) D avail : forall (p : mprog X) pos,
  mrun D (mmap f p) pos avail = match mrun D p pos avail with RDone x q => RDone (f x) q | RFail => RFail | RMore (p', pos') => RMore (mmap f p', pos') end.
Proof.
  induction p as [x| |n k IH|A q k IH|S T n call spos s k IH|S T start n call spos s k IH]; intros pos; cbn [mrun mmap]; auto.
  - destruct (_ <=? _)%nat; [apply IH|reflexivity].
  - destruct (brun D None q pos avail) as [a pos'| |[q' pos']]; auto.
  - destruct (call _ s _) as [y c| |s']; auto. destruct (_ =? _)%nat; auto.
  - destruct (call _ s _) as [y c| |s']; auto. destruct (_ =? _)%nat; auto.
Qed.

(** ** The whole stream *)
Definition image_stream (D : list Z) : Prop := exists p hdr ws bss,
  D = signature ++ hdr ++ concat bss /\ on_wire (WSection 2 p) hdr /\ Forall2 on_wire ws bss /\ grammar ws.
Definition original_stream (data D : list Z) : Prop := exists p hdr bs,
  D = signature ++ hdr ++ bs /\ on_wire (WSection 2 p) hdr /\ on_wire (WSection 9 data) bs.

Lemma skipn_end {A} (l : list A) n : skipn n l = [] -> (length l <= n)%nat.
Proof. intros H. apply f_equal with (f := @length A) in H. rewrite skipn_length in H. cbn in H. lia. Qed.

Lemma decode_stream_ok B Ok D o : bodies_laws B Ok -> bytes D -> decode_once (decode_stream B) D = (StOk, Some o) ->
  match o with
  | OImage img => image_stream D /\ exists met n, admissible 8 n (8 :: met) = true /\ Ok (8 :: met) img
  | OOriginal data => original_stream data D
  end.
Proof.
  intros GB Hb E. unfold decode_once, do_process in E.
  destruct (mrun D (decode_stream B) 0 (length D)) as [x q| |[? ?]] eqn:Em; try discriminate.
  unfold finish in E. destruct (Nat.eqb_spec q (length D)) as [->|]; [|discriminate]. injection E as ->.
  unfold decode_stream in Em. cbn [mrun] in Em. destruct (Nat.leb_spec (0 + 6) (length D)) as [H6|]; [|discriminate].
  unfold verify_signature in Em. rewrite slice_len in Em by lia. change (0 + 6 - 0)%nat with 6%nat in Em. change (6 <? 6)%nat with false in Em. cbv iota in Em.
  destruct (list_eqb (firstn 6 (slice D 0 (0 + 6))) signature) eqn:Es; [|discriminate]. apply list_eqb_eq in Es.
  assert (S6 : D = signature ++ skipn 6 D).
  { rewrite <- Es. unfold slice. change (0 + 6 - 0)%nat with 6%nat. cbn [skipn]. rewrite firstn_firstn. change (Nat.min 6 6) with 6%nat. symmetry. apply firstn_skipn. }
  change (0 + 6)%nat with 6%nat in *.
  apply (mrun_MB D decode_header _ 6 o (length D) Hb H6) in Em. destruct Em as (h & pos & F & Hp & Em).
  pose proof (bfull_ball0 header_valid D Hb decode_header 6 h pos _ H6 decode_header_ball F) as HV.
  apply decode_header_inv in F; [|apply skipn_bytes; exact Hb]. destruct F as (p & hdr & F1 & F2).
  destruct h as [|w h version legacy comps g].
  - apply mrun_MB in Em; [|exact Hb|lia]. destruct Em as (data & pos2 & G & Hp2 & Em). cbn [mrun] in Em. apply rdone_inj in Em as [<- ->].
    apply decode_original_inv in G; [|apply skipn_bytes; exact Hb]. destruct G as (bs & G1 & G2). rewrite skipn_all, app_nil_r in G2.
    exists p, hdr, bs. split; [|split; assumption]. rewrite <- G2, <- F2. exact S6.
  - rewrite mrun_mmap in Em. destruct (mrun D (read_sections B 16 [9; 2; 1] _) pos (length D)) as [img q| |[? ?]] eqn:Er; try discriminate.
    apply rdone_inj in Em as [<- ->]. apply (read_sections_inv B Ok) in Er; [|exact GB|exact Hb|apply (proj1 GB); exact HV|lia]. destruct Er as ((ws & bss & R1 & R2 & R3 & R4) & R5). split; [|exact R5].
    rewrite skipn_all, app_nil_r in R2. exists p, hdr, ws, bss. split; [|split; [exact F1|split; [exact R1|apply wf_grammar; exact R4]]].
    rewrite <- R2, <- F2. exact S6.
Qed.
Lemma decode_stream_inv B D o : good_bodies B -> bytes D -> decode_once (decode_stream B) D = (StOk, Some o) ->
  match o with OImage _ => image_stream D | OOriginal data => original_stream data D end.
Proof. intros [Ok GB] Hb E. pose proof (decode_stream_ok B Ok D o GB Hb E) as H. destruct o; [apply H|exact H]. Qed.

(** ** Suspension laws of the whole program *)
Lemma mgood_mmap {X Y} (f : X -> Y) ah D : forall (p : mprog X) a, mgood ah D p a -> mgood ah D (mmap f p) a.
Proof.
  induction p as [x| |n k IH|A q k IH|S T n call spos s k IH|S T start n call spos s k IH]; intros a H; cbn [mmap mgood] in *; auto.
  - destruct H as [H1 H2]. auto.
  - destruct H as (P & H1 & H2). exists P. auto.
  - destruct H as (P & H1 & H2). exists P. auto.
  - destruct H as (H1 & P & H2 & H3). split; [exact H1|]. exists P. auto.
Qed.
Lemma moutside_mmap {X Y} (f : X -> Y) : forall (p : mprog X), moutside p -> moutside (mmap f p).
Proof. induction p; intros H'; cbn [mmap moutside] in *; auto. Qed.

Lemma parse_section_ball met : ball0 (fun r => match fst r with
    | Some (t, n) => 0 <= n /\ mem t met = false /\ snd r = t :: met
    | None => exists t, known_tag t = false /\ snd r = t :: met end) (parse_section met).
Proof.
  unfold parse_section, read_tag. cbn [ball0]. intros v. destruct (_ || _); [exact I|]. destruct (negb _); [exact I|].
  destruct (mem (Z.shiftr v 3) met) eqn:M; [exact I|]. destruct (_ =? 2).
  - cbn [ball0 fst snd]. auto.
  - destruct (known_tag (Z.shiftr v 3)) eqn:K; [exact I|]. cbn [ball0 fst snd]. eauto.
Qed.

Lemma read_sections_good B Ok D : bodies_laws B Ok -> bytes D -> forall fuel met img a, Ok met img -> mgood read_ahead D (read_sections B fuel met img) a.
Proof.
  intros (_ & GU & GB) Hb. induction fuel as [|f IH]; intros met img a Hok; cbn [read_sections mgood]; [auto|].
  eexists. split; [apply parse_section_ball|]. intros [[[t n]|] met'] HP; cbn [fst snd] in *.
  - destruct HP as (P1 & P2 & ->). destruct (known_tag t) eqn:K.
    + destruct (admissible t n (t :: met)) eqn:Ad; [|exact I]. cbn [mgood]. exists (Ok (t :: met)).
      split; [intros start; apply GB; auto; rewrite Z2Nat.id by lia; exact Ad|].
      intros y Hy. destruct (t =? 8); [exact I|apply IH; exact Hy].
    + cbn [mgood]. exists (fun _ => True). split; [cbn [ball0]; auto|]. intros _ _. apply IH. apply GU; assumption.
  - destruct HP as (t & K & ->). apply IH. apply GU; assumption.
Qed.
Lemma read_sections_outside B : forall fuel met img, moutside (read_sections B fuel met img).
Proof.
  induction fuel as [|f IH]; intros met img; cbn [read_sections moutside]; [auto|].
  intros [[[t n]|] met']; cbn [fst snd]; [|apply IH].
  destruct (known_tag t); [|cbn [moutside]; intros _; apply IH]. destruct (admissible t n met'); [|exact I]. cbn [moutside].
  intros y. destruct (t =? 8); [exact I|apply IH].
Qed.

Lemma decode_stream_good B D : good_bodies B -> bytes D -> mgood read_ahead D (decode_stream B) 0 /\ moutside (decode_stream B).
Proof.
  intros [Ok GB] Hb. unfold decode_stream. cbn [mgood moutside]. split.
  - split; [unfold read_ahead; lia|]. intros l. destruct (verify_signature l); try exact I. cbn [mgood].
    exists header_valid. split; [apply decode_header_ball|]. intros [|w h v lg c g] HV.
    + cbn [mgood]. exists (fun _ => True). split; [|auto]. unfold decode_original. apply read_tag_ball. intros t s m. destruct (_ || _); cbn [ball0]; auto.
    + apply mgood_mmap. apply (read_sections_good B Ok D GB Hb). apply (proj1 GB). exact HV.
  - intros l. destruct (verify_signature l); try exact I. cbn [moutside]. intros [|w h v lg c g]; [cbn [moutside]; auto|].
    apply moutside_mmap. apply read_sections_outside.
Qed.
