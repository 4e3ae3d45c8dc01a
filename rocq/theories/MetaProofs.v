From Verif Require Import Base CodesModel CodesProofs Tables Stream MetaModel.

(** ** Byte at a time *)
Fixpoint pfold (s : mstate) (data : list Z) : pres :=
  match data with
  | [] => POk s
  | b :: r => match pmd_body s [b] with None => PBad | Some (s', _) => pfold s' r end
  end.

Lemma pfold_cons s b r : pfold s (b :: r) = match pmd_body s [b] with None => PBad | Some (s', _) => pfold s' r end.
Proof. reflexivity. Qed.

Definition minv (s : mstate) : Prop := m_stage s = SMulti -> 0 < m_rem s.

Lemma pfold_app : forall a b s, pfold s (a ++ b) = match pfold s a with POk s' => pfold s' b | x => x end.
Proof.
  induction a as [|x a IH]; intros b s; [reflexivity|]. cbn [app pfold]. destruct (pmd_body s [x]) as [[s' r]|]; [apply IH|reflexivity].
Qed.

Lemma append_last_app l a b : append_last (append_last l a) b = append_last l (a ++ b).
Proof.
  induction l as [|x l IH]; [reflexivity|]. destruct l as [|y l].
  - cbn. rewrite app_assoc. reflexivity.
  - change (append_last (x :: y :: l) a) with (x :: append_last (y :: l) a). change (append_last (x :: y :: l) (a ++ b)) with (x :: append_last (y :: l) (a ++ b)).
    rewrite <- IH. destruct (append_last (y :: l) a) eqn:E; [destruct l; discriminate|]. reflexivity.
Qed.
Lemma append_last_nil l : append_last l [] = l.
Proof. induction l as [|x l IH]; [reflexivity|]. destruct l; [cbn; rewrite app_nil_r; reflexivity|]. cbn in *. rewrite IH. reflexivity. Qed.
Lemma append_last_snoc l x d : append_last (l ++ [x]) d = l ++ [x ++ d].
Proof. induction l as [|y l IH]; [reflexivity|]. cbn [app]. destruct (l ++ [x]) eqn:E; [destruct l; discriminate|]. change (y :: append_last (l0 :: l1) d = y :: l ++ [x ++ d]). rewrite IH. reflexivity. Qed.
Lemma append_last_length l d : length (append_last l d) = length l.
Proof. induction l as [|x l IH]; [reflexivity|]. destruct l; [reflexivity|]. change (S (length (append_last (l :: l0) d)) = S (length (l :: l0))). rewrite IH. reflexivity. Qed.

(** The state after [k <= rem] payload bytes. *)
Definition multi_state (s : mstate) (piece : list Z) : mstate :=
  let rem := m_rem s - Z.of_nat (length piece) in
  let st := if rem =? 0 then SMarker else SMulti in
  if m_marker s =? 254
  then mkM st (m_marker s) (m_hi s) (m_short s) rem (m_app s) (append_last (m_com s) piece) (m_tail s)
  else mkM st (m_marker s) (m_hi s) (m_short s) rem (append_last (m_app s) piece) (m_com s) (m_tail s).

Lemma pmd_body_multi s data : m_stage s = SMulti -> 0 < m_rem s -> data <> [] ->
  pmd_body s data = Some (multi_state s (firstn (Z.to_nat (m_rem s)) data), skipn (Z.to_nat (m_rem s)) data).
Proof.
  intros Hs Hr Hd. destruct data as [|b r]; [congruence|]. unfold pmd_body. rewrite Hs. unfold multi_state.
  set (data := b :: r). assert (E : Z.to_nat (Z.min (m_rem s) (Z.of_nat (length data))) = Nat.min (Z.to_nat (m_rem s)) (length data)) by lia.
  rewrite E. rewrite firstn_length.
  assert (F : firstn (Nat.min (Z.to_nat (m_rem s)) (length data)) data = firstn (Z.to_nat (m_rem s)) data).
  { destruct (Nat.le_ge_cases (Z.to_nat (m_rem s)) (length data)); [rewrite Nat.min_l by lia; reflexivity|].
    rewrite Nat.min_r by lia. rewrite firstn_all, firstn_all2 by lia. reflexivity. }
  assert (G : skipn (Nat.min (Z.to_nat (m_rem s)) (length data)) data = skipn (Z.to_nat (m_rem s)) data).
  { destruct (Nat.le_ge_cases (Z.to_nat (m_rem s)) (length data)); [rewrite Nat.min_l by lia; reflexivity|].
    rewrite Nat.min_r by lia. rewrite skipn_all, skipn_all2 by lia. reflexivity. }
  rewrite F, G. replace (Z.of_nat (Nat.min (Z.to_nat (m_rem s)) (length data))) with (Z.min (m_rem s) (Z.of_nat (length data))) by lia.
  destruct (m_marker s =? 254); reflexivity.
Qed.

Lemma pfold_multi : forall piece rest s, m_stage s = SMulti -> 0 < m_rem s -> (length piece <= Z.to_nat (m_rem s))%nat -> piece <> [] ->
  pfold s (piece ++ rest) = pfold (multi_state s piece) rest.
Proof.
  induction piece as [|b p IH]; intros rest s Hs Hr Hl Hn; [congruence|]. cbn [app pfold].
  rewrite pmd_body_multi by (auto; discriminate).
  assert (E : firstn (Z.to_nat (m_rem s)) [b] = [b]) by (destruct (Z.to_nat (m_rem s)) as [|k] eqn:K; [lia|destruct k; reflexivity]).
  rewrite E. destruct p as [|c p]; [reflexivity|]. cbn [length] in Hl.
  rewrite IH; [| | |cbn [length]|discriminate].
  - f_equal. unfold multi_state. cbn [length]. destruct (m_marker s =? 254) eqn:Em; cbn [m_rem m_marker m_hi m_short m_app m_com m_tail]; rewrite Em.
    + rewrite append_last_app. cbn [app]. replace (m_rem s - Z.of_nat 1 - Z.of_nat (S (length p))) with (m_rem s - Z.of_nat (S (S (length p)))) by lia. reflexivity.
    + rewrite append_last_app. cbn [app]. replace (m_rem s - Z.of_nat 1 - Z.of_nat (S (length p))) with (m_rem s - Z.of_nat (S (S (length p)))) by lia. reflexivity.
  - unfold multi_state. cbn [length]. destruct (Z.eqb_spec (m_rem s - Z.of_nat 1) 0); [lia|]. destruct (m_marker s =? 254); reflexivity.
  - unfold multi_state. cbn [length]. destruct (m_marker s =? 254); cbn [m_rem]; lia.
  - unfold multi_state. cbn [length]. destruct (m_marker s =? 254); cbn [m_rem]; lia.
Qed.

Lemma pfold_tail : forall data s, m_stage s = STail ->
  pfold s data = POk (mkM STail (m_marker s) (m_hi s) (m_short s) (m_rem s) (m_app s) (m_com s) (m_tail s ++ data)).
Proof.
  induction data as [|b r IH]; intros s Hs; cbn [pfold].
  - rewrite app_nil_r. destruct s; cbn in *; subst; reflexivity.
  - unfold pmd_body. rewrite Hs. rewrite IH by reflexivity. cbn. rewrite <- app_assoc. reflexivity.
Qed.

Lemma minv_multi s piece : 0 < m_rem s -> (length piece <= Z.to_nat (m_rem s))%nat -> minv (multi_state s piece).
Proof.
  intros H0 H. unfold minv, multi_state. destruct (m_marker s =? 254); cbn [m_stage m_rem]; destruct (Z.eqb_spec (m_rem s - Z.of_nat (length piece)) 0); try discriminate; intros _; lia.
Qed.

Lemma pmd_body_minv s b s' r : minv s -> pmd_body s [b] = Some (s', r) -> minv s' /\ r = [].
Proof.
  intros Hi E. destruct (m_stage s) eqn:Hs.
  6: { rewrite pmd_body_multi in E by (auto; discriminate). apply Hi in Hs.
       assert (E1 : firstn (Z.to_nat (m_rem s)) [b] = [b]) by (destruct (Z.to_nat (m_rem s)) as [|k] eqn:K; [lia|destruct k; reflexivity]).
       assert (E2 : skipn (Z.to_nat (m_rem s)) [b] = []) by (destruct (Z.to_nat (m_rem s)) as [|k] eqn:K; [lia|destruct k; reflexivity]).
       rewrite E1, E2 in E. injection E as <- <-. split; [|reflexivity]. apply minv_multi; [exact Hs|cbn; lia]. }
  all: unfold pmd_body in E; rewrite Hs in E; cbv zeta in E;
    repeat match type of E with (if ?c then _ else _) = _ => let X := fresh "X" in destruct c eqn:X end; try discriminate;
    injection E as <- <-; (split; [|reflexivity]); unfold minv; cbn [m_stage m_rem]; try discriminate.
  all: match goal with |- (if ?c then _ else _) = _ -> _ => destruct c eqn:Y end; try discriminate; lia.
Qed.

Lemma pmd_body_single s b rest : m_stage s <> STail -> m_stage s <> SMulti ->
  pmd_body s (b :: rest) = match pmd_body s [b] with None => None | Some (s', _) => Some (s', rest) end.
Proof.
  intros H1 H2. unfold pmd_body. destruct (m_stage s); try congruence; cbv zeta;
    repeat match goal with |- context [if ?c then _ else _] => destruct c end; reflexivity.
Qed.

(** ProcessMetaData ends and is the byte-at-a-time parser. *)
Lemma process_metadata_fold s data : minv s -> process_metadata s data = pfold s data.
Proof.
  unfold process_metadata. assert (G : forall f s data, (length data <= f)%nat -> minv s -> pmd_loop f s data = pfold s data).
  { clear s data. induction f as [|f IH]; intros s data Hf Hi; [destruct data; [reflexivity|cbn in Hf; lia]|].
    destruct data as [|b r]; [reflexivity|]. cbn [length] in Hf. cbn [pmd_loop].
    destruct (m_stage s) eqn:Hs.
    2: { rewrite pfold_tail by assumption. unfold pmd_body. rewrite Hs. destruct f; reflexivity. }
    5: { assert (Hr := Hi Hs). rewrite pmd_body_multi by (auto; discriminate).
         rewrite <- (firstn_skipn (Z.to_nat (m_rem s)) (b :: r)) at 3. rewrite pfold_multi; auto.
         - apply IH; [|apply minv_multi; [exact Hr|rewrite firstn_length; lia]]. rewrite skipn_length. cbn [length]. lia.
         - rewrite firstn_length. lia.
         - destruct (Z.to_nat (m_rem s)) eqn:K; [lia|]. discriminate. }
    all: rewrite pmd_body_single by congruence; cbn [pfold]; destruct (pmd_body s [b]) as [[s' x]|] eqn:E; [|reflexivity];
      apply IH; [lia|]; apply (pmd_body_minv s b s' x Hi E). }
  apply G. lia.
Qed.

Lemma pfold_minv : forall data s s', minv s -> pfold s data = POk s' -> minv s'.
Proof.
  induction data as [|b r IH]; intros s s' Hi E; cbn [pfold] in E; [injection E as <-; exact Hi|].
  destruct (pmd_body s [b]) as [[s1 x]|] eqn:E1; [|discriminate]. apply (IH s1); [|exact E]. apply (pmd_body_minv s b s1 x Hi E1).
Qed.

Lemma pfold_not_stuck : forall data s, pfold s data <> PStuck.
Proof. induction data as [|b r IH]; intros s; cbn [pfold]; [discriminate|]. destruct (pmd_body s [b]) as [[? ?]|]; [apply IH|discriminate]. Qed.

Lemma m_init_minv : minv m_init.
Proof. discriminate. Qed.

(** ** Short codes *)
Lemma density_index_spec : forall l i x y acc,
  let r := density_index i l x y acc in
  r = acc \/ (i <= r < i + Z.of_nat (length l) /\ nth (Z.to_nat (r - i)) l 0 = x /\ y = x).
Proof.
  induction l as [|d l IH]; intros i x y acc; cbn [density_index]; [left; reflexivity|]. cbv zeta in *.
  destruct (IH (i + 1) x y (if (x =? d) && (y =? x) then i else acc)) as [H|(H1 & H2 & H3)].
  - rewrite H. destruct ((x =? d) && (y =? x)) eqn:E; [|left; reflexivity]. right. apply andb_prop in E. destruct E as [E1 E2]. apply Z.eqb_eq in E1, E2.
    rewrite Z.sub_diag. change (Z.to_nat 0) with 0%nat. cbn [length nth]. split; [lia|]. split; congruence.
  - set (r := density_index (i + 1) l x y _) in *. clearbody r. right. cbn [length]. split; [lia|]. split; [|exact H3].
    replace (Z.to_nat (r - i)) with (S (Z.to_nat (r - (i + 1)))) by lia. cbn [nth]. exact H2.
Qed.

Lemma app0_cases (a b ix : Z) : (a = 1 \/ a = 2) -> 0 <= b < 4 -> 0 <= ix < 8 ->
  let v := Z.lor (Z.lor (a - 1) (Z.shiftl b 1)) (Z.shiftl ix 3) mod 256 in
  let d := nth (Z.to_nat ix) kApp0Densities 0 in
  0 <= v < 64 /\
  generate_app0 v = [224; 0; 16; 74; 70; 73; 70; 0; 1; a; b; d / 256; d mod 256; d / 256; d mod 256; 0; 0].
Proof.
  intros Ha Hb Hi.
  assert (Hb' : b = 0 \/ b = 1 \/ b = 2 \/ b = 3) by lia.
  assert (Hi' : ix = 0 \/ ix = 1 \/ ix = 2 \/ ix = 3 \/ ix = 4 \/ ix = 5 \/ ix = 6 \/ ix = 7) by lia.
  clear Hb Hi.
  destruct Ha as [->| ->]; destruct Hb' as [->|[->|[->| ->]]]; destruct Hi' as [->|[->|[->|[->|[->|[->|[->| ->]]]]]]]; cbv zeta;
    (split; [vm_compute; split; [discriminate|reflexivity]|vm_compute; reflexivity]).
Qed.

Lemma transform_app0_ok s o : bytes s -> transform_app0 s = Some o ->
  exists b, o = [b] /\ 0 <= b < 64 /\ generate_app0 b = s.
Proof.
  intros Hb E. unfold transform_app0 in E. destruct (Nat.eqb_spec (length s) 17) as [L|]; [|discriminate]. cbn [negb] in E.
  destruct (list_eqb _ _) eqn:P; [|discriminate]. cbn [negb] in E. apply list_eqb_eq in P.
  do 17 (destruct s as [|? s]; [discriminate|]). destruct s; [|discriminate]. clear L.
  cbv beta zeta in E. cbn [nth firstn app_data_e0] in *. injection P as -> -> -> -> -> -> -> -> ->.
  match type of E with (if ?c then _ else _) = _ => destruct c eqn:C end; [|discriminate].
  apply andb_prop in C. destruct C as [C C16]. apply andb_prop in C. destruct C as [C C15]. apply andb_prop in C. destruct C as [C9 C10].
  apply Z.eqb_eq in C15, C16. subst.
  match type of E with context [density_index 0 ?l ?x ?y (-1)] => pose proof (density_index_spec l 0 x y (-1)) as DS; set (ix := density_index 0 l x y (-1)) in * end.
  cbv zeta in DS. destruct (Z.leb_spec 0 ix) as [I|]; [|discriminate]. destruct DS as [|(I1 & I2 & I3)]; [lia|].
  change (Z.of_nat (length kApp0Densities)) with 8 in I1. rewrite Z.sub_0_r in I2.
  unfold bytes in Hb. repeat match goal with H : Forall _ (_ :: _) |- _ => let A := fresh "B" in apply Forall_cons_iff in H; destruct H as [A H] end.
  unfold is_byte in *. rewrite !Z.shiftl_mul_pow2 in I2 by lia. rewrite !Z.shiftl_mul_pow2 in I3 by lia. change (2 ^ 8) with 256 in *.
  match type of E with Some [Z.lor (Z.lor (?a - 1) (Z.shiftl ?b 1)) _ mod 256] = _ =>
    destruct (app0_cases a b ix ltac:(lia) ltac:(lia) ltac:(lia)) as [R1 R2] end.
  cbv zeta in R1, R2. eexists. split; [symmetry; injection E as E; exact E|]. split; [exact R1|]. rewrite R2, I2.
  repeat f_equal; dlia.
Qed.

Lemma upd_split : forall (t s : list Z) h, (h < length t)%nat -> length s = length t -> firstn h s = firstn h t -> skipn (S h) s = skipn (S h) t ->
  upd t h (nth h s 0) = s.
Proof.
  induction t as [|x t IH]; intros s h Hh Hl Hf Hs; [cbn in Hh; lia|]. destruct s as [|y s]; [discriminate|].
  destruct h as [|h].
  - cbn in Hs. cbn. congruence.
  - cbn [firstn] in Hf. injection Hf as -> Hf. change (x :: upd t h (nth h s 0) = x :: s). f_equal.
    apply IH; [cbn in Hh; lia|cbn in Hl; lia|exact Hf|exact Hs].
Qed.

Lemma transform_hole_ok t h c s o : (h < length t)%nat -> transform_hole t h c s = Some o -> o = [c; nth h s 0] /\ upd t h (nth h s 0) = s.
Proof.
  intros Hh E. unfold transform_hole in E. destruct (_ && _) eqn:C; [|discriminate]. injection E as <-.
  apply andb_prop in C. destruct C as [C C3]. apply andb_prop in C. destruct C as [C1 C2].
  apply Nat.eqb_eq in C1. apply list_eqb_eq in C2, C3. split; [reflexivity|]. apply upd_split; auto.
Qed.

(** ** Segments *)
Definition segment_ok (lo hi : Z) (s : list Z) : Prop :=
  bytes s /\ exists m h l payload, s = m :: h :: l :: payload /\ lo <= m <= hi /\ h * 256 + l = Z.of_nat (length payload) + 2.

(** A parser state between segments. *)
Definition between (short : Z) (app com : list (list Z)) (tail : list Z) (s : mstate) : Prop :=
  m_stage s = SMarker /\ m_short s = short /\ m_app s = app /\ m_com s = com /\ m_tail s = tail.

Lemma parse_segment app com short tail s data : between short app com tail s -> bytes data ->
  (segment_ok 224 239 data /\ 0 <= short <= Z.of_nat (length app) /\ Z.of_nat (length app) - short < 1024 \/ segment_ok 254 254 data /\ Z.of_nat (length com) < 1024) ->
  exists s', pfold s data = POk s' /\
    between short (if nth 0 data 0 =? 254 then app else app ++ [data]) (if nth 0 data 0 =? 254 then com ++ [data] else com) tail s'.
Proof.
  intros (B1 & B2 & B3 & B4 & B5) Hb H.
  assert (exists m h l payload, data = m :: h :: l :: payload /\ h * 256 + l = Z.of_nat (length payload) + 2 /\
     (224 <= m <= 239 /\ 0 <= short <= Z.of_nat (length app) /\ Z.of_nat (length app) - short < 1024 \/ m = 254 /\ Z.of_nat (length com) < 1024)) as (m & h & l & p & -> & HL & HM).
  { destruct H as [((_ & m & h & l & p & E & A & B) & C)|((_ & m & h & l & p & E & A & B) & C)]; exists m, h, l, p; (split; [exact E|split; [exact B|]]); lia. }
  clear H. unfold bytes in Hb. do 3 (apply Forall_cons_iff in Hb; destruct Hb as [? Hb]). unfold is_byte in *.
  cbn [nth]. cbn [pfold]. unfold pmd_body at 1. rewrite B1.
  destruct (Z.eqb_spec m 217); [lia|]. destruct (Z.ltb_spec m 64); [lia|]. destruct (Z.leb_spec 128 m); [|lia]. cbn [andb].
  destruct (Z.leb_spec m 130); [lia|].
  assert (HS : negb (m =? 254) && negb (Z.shiftr m 4 =? 14) = false).
  { destruct HM as [HM| [HM _]].
    - rewrite Z.shiftr_div_pow2 by lia. change (2 ^ 4) with 16. replace (m / 16) with 14 by dlia. apply andb_false_r.
    - subst. reflexivity. }
  rewrite HS. cbn [pfold]. unfold pmd_body at 1. cbn [m_stage]. unfold pmd_body at 1. cbn [m_stage m_marker m_hi m_short m_rem m_app m_com m_tail].
  cbv zeta. rewrite Z.shiftl_mul_pow2 by lia. change (2 ^ 8) with 256. rewrite HL.
  destruct (Z.ltb_spec (Z.of_nat (length p) + 2) 2); [lia|].
  replace (Z.of_nat (length p) + 2 - 2) with (Z.of_nat (length p)) by lia.
  destruct (Z.eqb_spec m 254) as [->|Hm].
  - rewrite B4. unfold kMultibyteMarkerLimit. destruct (Z.leb_spec 1024 (Z.of_nat (length com))); [lia|].
    destruct p as [|c p].
    + cbn. eexists. split; [reflexivity|]. unfold between. cbn. auto.
    + destruct (Z.ltb_spec 0 (Z.of_nat (length (c :: p)))); [|cbn in *; lia].
      match goal with |- exists s', pfold ?st _ = _ /\ _ => pose proof (pfold_multi (c :: p) [] st) as PM end. rewrite app_nil_r in PM. rewrite PM; [|reflexivity|cbn [m_rem]; lia|cbn [m_rem]; lia|discriminate].
      cbn [pfold]. eexists. split; [reflexivity|]. unfold multi_state. cbn [m_rem m_marker]. rewrite Z.sub_diag. cbn [Z.eqb]. unfold between. cbn [m_stage m_short m_app m_com m_tail].
      rewrite append_last_snoc. auto.
  - rewrite B2, B3. rewrite Z.mod_small by lia. unfold kMultibyteMarkerLimit. destruct (Z.leb_spec 1024 (Z.of_nat (length app) - short)); [lia|].
    destruct p as [|c p].
    + cbn. eexists. split; [reflexivity|]. unfold between. cbn. auto.
    + destruct (Z.ltb_spec 0 (Z.of_nat (length (c :: p)))); [|cbn in *; lia].
      match goal with |- exists s', pfold ?st _ = _ /\ _ => pose proof (pfold_multi (c :: p) [] st) as PM end. rewrite app_nil_r in PM. rewrite PM; [|reflexivity|cbn [m_rem]; lia|cbn [m_rem]; lia|discriminate].
      cbn [pfold]. eexists. split; [reflexivity|]. unfold multi_state. cbn [m_rem m_marker]. destruct (Z.eqb_spec m 254); [congruence|].
      rewrite Z.sub_diag. cbn [Z.eqb]. unfold between. cbn [m_stage m_short m_app m_com m_tail].
      rewrite append_last_snoc. auto.
Qed.

Lemma parse_short app com short tail s seg o : between short app com tail s -> bytes seg -> transform_app seg = (o, true) -> short < kShortMarkerLimit ->
  exists s', pfold s o = POk s' /\ between (short + 1) (app ++ [seg]) com tail s'.
Proof.
  intros (B1 & B2 & B3 & B4 & B5) Hb E Hs. unfold transform_app in E.
  assert (H2 : forall c v, (c = 128 \/ c = 129 \/ c = 130) -> generate_app c v = seg ->
     exists s', pfold s [c; v] = POk s' /\ between (short + 1) (app ++ [seg]) com tail s').
  { intros c v Hc Hg. cbn [pfold]. unfold pmd_body at 1. rewrite B1, B2.
    destruct (Z.eqb_spec c 217); [lia|]. destruct (Z.ltb_spec c 64); [lia|].
    replace ((128 <=? c) && (c <=? 130)) with true by lia.
    destruct (Z.ltb_spec kShortMarkerLimit (short + 1)); [lia|]. cbn [pmd_body m_stage m_marker m_hi m_short m_rem m_app m_com m_tail].
    eexists. split; [reflexivity|]. unfold between. cbn [m_stage m_short m_app m_com m_tail]. rewrite B3, Hg. auto. }
  destruct (transform_app0 seg) as [o'|] eqn:E0.
  { injection E as <-. destruct (transform_app0_ok seg o' Hb E0) as (b & -> & Hr & Hg). cbn [pfold]. unfold pmd_body. rewrite B1, B2.
    destruct (Z.eqb_spec b 217); [lia|]. destruct (Z.ltb_spec b 64); [|lia].
    destruct (Z.ltb_spec kShortMarkerLimit (short + 1)); [lia|]. eexists. split; [reflexivity|]. unfold between. cbn [m_stage m_short m_app m_com m_tail]. rewrite B3, Hg. auto. }
  destruct (transform_hole app_data_e2 84 128 seg) as [o'|] eqn:E2.
  { injection E as <-. apply transform_hole_ok in E2; [|rewrite app_data_e2_length; lia]. destruct E2 as [-> G]. apply H2; [lia|]. exact G. }
  destruct (transform_hole app_data_ec 15 129 seg) as [o'|] eqn:E3.
  { injection E as <-. apply transform_hole_ok in E3; [|cbn; lia]. destruct E3 as [-> G]. apply H2; [lia|]. exact G. }
  destruct (transform_hole app_data_ee 10 130 seg) as [o'|] eqn:E4; [|discriminate].
  injection E as <-. apply transform_hole_ok in E4; [|cbn; lia]. destruct E4 as [-> G]. apply H2; [lia|]. exact G.
Qed.

Lemma transform_app_id s o : transform_app s = (o, false) -> o = s.
Proof.
  unfold transform_app. destruct (transform_app0 s); [discriminate|]. destruct (transform_hole _ _ 128 _); [discriminate|].
  destruct (transform_hole _ _ 129 _); [discriminate|]. destruct (transform_hole _ _ 130 _); [discriminate|]. congruence.
Qed.

Lemma parse_apps com tail : forall segs short app s, between short app com tail s -> Forall (segment_ok 224 239) segs ->
  0 <= short <= Z.of_nat (length app) ->
  short + Z.of_nat (length (filter snd (map transform_app segs))) <= kShortMarkerLimit ->
  Z.of_nat (length app) - short + (Z.of_nat (length segs) - Z.of_nat (length (filter snd (map transform_app segs)))) <= kMultibyteMarkerLimit ->
  exists s' short', pfold s (concat (map fst (map transform_app segs))) = POk s' /\ between short' (app ++ segs) com tail s'.
Proof.
  induction segs as [|g segs IH]; intros short app s B F H1 H2 H3.
  - cbn. exists s, short. rewrite app_nil_r. auto.
  - inversion F as [|? ? Fg Fs]; subst. cbn [map] in *. destruct (transform_app g) as [o t] eqn:E. cbn [map fst snd filter concat length] in *.
    rewrite pfold_app.
    assert (Hfl : (length (filter snd (map transform_app segs)) <= length segs)%nat).
    { rewrite <- (map_length transform_app segs). clear. induction (map transform_app segs) as [|[a b] l IHl]; cbn; [lia|]. destruct b; cbn; lia. }
    destruct t.
    + cbn [length] in *. destruct (parse_short app com short tail s g o B (proj1 Fg) E ltac:(lia)) as (s1 & -> & B1).
      destruct (IH (short + 1) (app ++ [g]) s1 B1 Fs) as (s2 & sh & R & B2); [rewrite app_length; cbn; lia|lia|rewrite app_length; cbn [length]; lia|].
      exists s2, sh. rewrite <- app_assoc in B2. auto.
    + apply transform_app_id in E. subst o. destruct Fg as [Fb Fg].
      destruct (parse_segment app com short tail s g B Fb) as (s1 & -> & B1).
      { left. split; [split; assumption|]. unfold kMultibyteMarkerLimit in H3. lia. }
      assert (Hn : nth 0 g 0 =? 254 = false) by (destruct Fg as (m & h & l & p & -> & ? & _); cbn; lia). rewrite Hn in B1.
      destruct (IH short (app ++ [g]) s1 B1 Fs) as (s2 & sh & R & B2); [rewrite app_length; cbn; lia|lia|rewrite app_length; cbn [length]; lia|].
      exists s2, sh. rewrite <- app_assoc in B2. auto.
Qed.

Lemma parse_coms app tail short : forall segs com s, between short app com tail s -> Forall (segment_ok 254 254) segs ->
  Z.of_nat (length com) + Z.of_nat (length segs) <= kMultibyteMarkerLimit ->
  exists s', pfold s (concat segs) = POk s' /\ between short app (com ++ segs) tail s'.
Proof.
  induction segs as [|g segs IH]; intros com s B F H1.
  - cbn. exists s. rewrite app_nil_r. auto.
  - inversion F as [|? ? Fg Fs]; subst. cbn [concat length] in *. rewrite pfold_app.
    destruct (parse_segment app com short tail s g B (proj1 Fg)) as (s1 & -> & B1).
    { right. split; [exact Fg|]. unfold kMultibyteMarkerLimit in H1. lia. }
    assert (Hn : nth 0 g 0 =? 254 = true) by (destruct Fg as (_ & m & h & l & p & -> & ? & _); cbn; lia). rewrite Hn in B1.
    destruct (IH (com ++ [g]) s1 B1 Fs) as (s2 & R & B2); [rewrite app_length; cbn [length]; lia|].
    exists s2. rewrite <- app_assoc in B2. auto.
Qed.

Lemma metadata_string_parse app com tail m : Forall (segment_ok 224 239) app -> Forall (segment_ok 254 254) com ->
  metadata_string app com tail = Some m ->
  exists s, pfold m_init m = POk s /\ can_finish s = true /\ m_app s = app /\ m_com s = com /\ m_tail s = tail.
Proof.
  intros Ha Hc E. unfold metadata_string in E. cbv zeta in E.
  match type of E with (if ?c then _ else _) = _ => destruct c eqn:C1 end; [discriminate|].
  match type of E with (if ?c then _ else _) = _ => destruct c eqn:C2 end; [discriminate|].
  match type of E with (if ?c then _ else _) = _ => destruct c eqn:C3 end; [discriminate|].
  injection E as <-.
  assert (B0 : between 0 [] [] [] m_init) by (unfold between; cbn; auto).
  destruct (parse_apps [] [] app 0 [] m_init B0 Ha) as (s1 & sh & R1 & B1); [cbn; lia|lia|cbn [length]; lia|].
  rewrite pfold_app, R1. rewrite app_nil_l in B1.
  destruct (parse_coms app [] sh com [] s1 B1 Hc) as (s2 & R2 & B2); [cbn [length]; lia|].
  rewrite pfold_app, R2. rewrite app_nil_l in B2. destruct B2 as (X1 & X2 & X3 & X4 & X5).
  destruct tail as [|t tail].
  - cbn. exists s2. unfold can_finish. rewrite X1. auto.
  - rewrite pfold_cons. unfold pmd_body. rewrite X1. change (217 =? 217) with true. cbv iota.
    rewrite pfold_tail by reflexivity. eexists. split; [reflexivity|]. cbn. auto.
Qed.

(** ** Bounds *)
Definition total_len (l : list (list Z)) : Z := sumZ (map (fun x => Z.of_nat (length x)) l).
Lemma total_len_snoc l x : total_len (l ++ [x]) = total_len l + Z.of_nat (length x).
Proof.
  unfold total_len. induction l as [|y l IH]; cbn [app map].
  - cbn. lia.
  - change (Z.of_nat (length y) + sumZ (map (fun x => Z.of_nat (length x)) (l ++ [x])) = Z.of_nat (length y) + sumZ (map (fun x => Z.of_nat (length x)) l) + Z.of_nat (length x)).
    lia.
Qed.
Lemma total_len_append l d : l <> [] -> total_len (append_last l d) = total_len l + Z.of_nat (length d).
Proof.
  intros H. destruct (exists_last H) as (l' & x & ->). rewrite append_last_snoc, !total_len_snoc, app_length. lia.
Qed.

(** [c] bytes have been parsed. *)
Definition bounded (c : Z) (s : mstate) : Prop :=
  0 <= m_short s <= kShortMarkerLimit /\
  (m_stage s = SCode -> 1 <= m_short s /\ Z.of_nat (length (m_app s)) <= m_short s - 1 + kMultibyteMarkerLimit /\ m_short s - 1 <= Z.of_nat (length (m_app s))) /\
  (m_stage s <> SCode -> m_short s <= Z.of_nat (length (m_app s)) <= m_short s + kMultibyteMarkerLimit) /\
  Z.of_nat (length (m_com s)) <= kMultibyteMarkerLimit /\
  0 <= c /\
  (m_stage s = SLenLo -> total_len (m_app s) + total_len (m_com s) + Z.of_nat (length (m_tail s)) + 2 <= 3161 * m_short s + c) /\
  (m_stage s = SLenHi -> total_len (m_app s) + total_len (m_com s) + Z.of_nat (length (m_tail s)) + 1 <= 3161 * m_short s + c) /\
  (m_stage s = SCode -> total_len (m_app s) + total_len (m_com s) + Z.of_nat (length (m_tail s)) + 3161 <= 3161 * m_short s + c) /\
  (m_stage s = SMulti -> m_marker s = 254 -> m_com s <> []) /\
  (m_stage s = SMulti -> m_marker s <> 254 -> m_app s <> []) /\
  total_len (m_app s) + total_len (m_com s) + Z.of_nat (length (m_tail s)) <= 3161 * m_short s + c.

Lemma generate_app0_length b : length (generate_app0 b) = 17%nat.
Proof. unfold generate_app0. cbv zeta. rewrite !upd_length. reflexivity. Qed.
Lemma generate_app_length m c : (length (generate_app m c) <= 3161)%nat.
Proof.
  unfold generate_app. destruct (m =? 128); [rewrite upd_length, app_data_e2_length; lia|].
  destruct (m =? 129); rewrite upd_length; cbn; lia.
Qed.

Lemma bounded_step c s b s' r : bounded c s -> minv s -> pmd_body s [b] = Some (s', r) -> bounded (c + 1) s'.
Proof.
  intros (H1 & H2 & H3 & H4 & H0 & H5 & H6 & H7 & H8 & H9 & H10) Hi E.
  destruct (m_stage s) eqn:Hs.
  - unfold pmd_body in E; rewrite Hs in E. specialize (H3 ltac:(discriminate)).
    destruct (b =? 217). { injection E as <- <-. unfold bounded. cbn [m_stage m_short m_app m_com m_tail m_marker length]. repeat split; try discriminate; try lia. }
    destruct (b <? 64). { destruct (Z.ltb_spec kShortMarkerLimit (m_short s + 1)); [discriminate|]. injection E as <- <-. unfold bounded.
      cbn [m_stage m_short m_app m_com m_tail m_marker length]. rewrite total_len_snoc, app_length, generate_app0_length. cbn [length]. repeat split; try discriminate; try lia. }
    destruct (_ && _). { destruct (Z.ltb_spec kShortMarkerLimit (m_short s + 1)); [discriminate|]. injection E as <- <-. unfold bounded.
      cbn [m_stage m_short m_app m_com m_tail m_marker length]. repeat split; try discriminate; try lia; congruence. }
    destruct (_ && _); [discriminate|]. injection E as <- <-. unfold bounded.
      cbn [m_stage m_short m_app m_com m_tail m_marker length]. repeat split; try discriminate; try lia.
  - unfold pmd_body in E; rewrite Hs in E. specialize (H3 ltac:(discriminate)). injection E as <- <-. unfold bounded.
      cbn [m_stage m_short m_app m_com m_tail m_marker length]. rewrite app_length. cbn [length]. repeat split; try discriminate; try lia.
  - unfold pmd_body in E; rewrite Hs in E. specialize (H2 eq_refl). specialize (H7 eq_refl). injection E as <- <-. unfold bounded.
      pose proof (generate_app_length (m_marker s) b).
      cbn [m_stage m_short m_app m_com m_tail m_marker length]. rewrite total_len_snoc, app_length. cbn [length]. repeat split; try discriminate; try lia.
  - unfold pmd_body in E; rewrite Hs in E. specialize (H3 ltac:(discriminate)). specialize (H6 eq_refl). injection E as <- <-. unfold bounded.
      cbn [m_stage m_short m_app m_com m_tail m_marker length]. repeat split; try discriminate; try lia.
  - unfold pmd_body in E; rewrite Hs in E. specialize (H3 ltac:(discriminate)). specialize (H5 eq_refl). cbv zeta in E.
    destruct (_ <? 2); [discriminate|]. destruct (m_marker s =? 254) eqn:Em.
    + destruct (Z.leb_spec kMultibyteMarkerLimit (Z.of_nat (length (m_com s)))); [discriminate|]. injection E as <- <-. unfold bounded.
      cbn [m_stage m_short m_app m_com m_tail m_marker length]. rewrite total_len_snoc, app_length. cbn [length].
      destruct (0 <? _); repeat split; try discriminate; try lia; intros; try (destruct (m_com s); discriminate); lia.
    + destruct (Z.leb_spec kMultibyteMarkerLimit ((Z.of_nat (length (m_app s)) - m_short s) mod 2 ^ 64)) as [|L]; [discriminate|]. injection E as <- <-. unfold bounded.
      assert (Hl : Z.of_nat (length (m_app s)) - m_short s < kMultibyteMarkerLimit).
      { rewrite Z.mod_small in L; [exact L|]. unfold kMultibyteMarkerLimit, kShortMarkerLimit in *. lia. }
      cbn [m_stage m_short m_app m_com m_tail m_marker length]. rewrite total_len_snoc, app_length. cbn [length].
      destruct (0 <? _); repeat split; try discriminate; try lia; intros; try (destruct (m_app s); discriminate); lia.
  - assert (Hr := Hi Hs). rewrite pmd_body_multi in E by (auto; discriminate). specialize (H3 ltac:(discriminate)). specialize (H8 eq_refl). specialize (H9 eq_refl).
    assert (E1 : firstn (Z.to_nat (m_rem s)) [b] = [b]) by (destruct (Z.to_nat (m_rem s)) as [|k] eqn:K; [lia|destruct k; reflexivity]).
    rewrite E1 in E. injection E as <- _. unfold multi_state. cbn [length].
    destruct (Z.eqb_spec (m_marker s) 254) as [Em|Em].
    + specialize (H8 Em). unfold bounded. cbn [m_stage m_short m_app m_com m_tail m_marker length]. rewrite append_last_length, total_len_append by assumption. cbn [length].
      assert (append_last (m_com s) [b] <> []) by (intros X; apply H8, length_zero_iff_nil; rewrite <- (append_last_length _ [b]), X; reflexivity).
      destruct (_ =? 0); repeat split; try discriminate; try lia; intros; try assumption; try lia; congruence.
    + specialize (H9 Em). unfold bounded. cbn [m_stage m_short m_app m_com m_tail m_marker length]. rewrite append_last_length, total_len_append by assumption. cbn [length].
      assert (append_last (m_app s) [b] <> []) by (intros X; apply H9, length_zero_iff_nil; rewrite <- (append_last_length _ [b]), X; reflexivity).
      destruct (_ =? 0); repeat split; try discriminate; try lia; intros; try assumption; try lia; congruence.
Qed.

Lemma bounded_init : bounded 0 m_init.
Proof. unfold bounded, kShortMarkerLimit, kMultibyteMarkerLimit. cbn. repeat split; try discriminate; try lia. Qed.

Lemma bounded_fold : forall data c s s', bounded c s -> minv s -> pfold s data = POk s' -> bounded (c + Z.of_nat (length data)) s'.
Proof.
  induction data as [|b r IH]; intros c s s' B I E; cbn [pfold] in E.
  - injection E as <-. rewrite Z.add_0_r. exact B.
  - destruct (pmd_body s [b]) as [[s1 x]|] eqn:E1; [|discriminate].
    replace (c + Z.of_nat (length (b :: r))) with (c + 1 + Z.of_nat (length r)) by (cbn [length]; lia).
    apply (IH _ s1); [eapply bounded_step; eassumption|apply (pmd_body_minv s b s1 x I E1)|exact E].
Qed.

(** ** The whole section *)
Lemma bro_run_app B : forall a b st, bro_run B st (a ++ b) =
  match bro_run B st a with
  | BrError => BrError
  | BrEnd o u => BrEnd o u
  | BrMore o st' => match bro_run B st' b with BrError => BrError | BrEnd o' u => BrEnd (o ++ o') (length a + u) | BrMore o' st'' => BrMore (o ++ o') st'' end
  end.
Proof.
  induction a as [|x a IH]; intros b st; cbn [app bro_run].
  - destruct (bro_run B st b); reflexivity.
  - destruct (b_step B st x) as [[o [st'|]]|]; [|reflexivity|reflexivity]. rewrite IH. destruct (bro_run B st' a) as [|o' u|o' st'']; try reflexivity.
    destruct (bro_run B st'' b); cbn [length plus]; rewrite ?app_assoc; reflexivity.
Qed.

Definition mdinv {B} (n : nat) (s : mdstate B) (a : nat) : Prop :=
  match s with
  | MDInitial => True
  | MDLength => (1 < n)%nat
  | MDBrotli st size out ms pos => (pos <= a)%nat /\ (pos <= n)%nat /\ minv ms
  end.

Lemma md_brotli_stable B D n N st size out ms pos a b : bytes D -> (n <= N <= length D)%nat -> (pos <= n)%nat -> (pos <= a <= b)%nat -> (b <= N)%nat -> minv ms ->
  match @md_brotli B D n st size out ms pos b with
  | RDone x q => @md_brotli B D n st size out ms pos N = RDone x q
  | RFail => forall x q, @md_brotli B D n st size out ms pos N <> RDone x q
  | RMore s' => mdinv n s' b /\ forall x q, mdcall B D n s' N = RDone x q <-> @md_brotli B D n st size out ms pos N = RDone x q
  end.
Proof.
  intros Hb Hn Hp Hab HbN Hi. unfold md_brotli at 1 2 3 4. rewrite (Nat.min_r N n) by lia.
  destruct (Nat.leb_spec n b) as [Hnb|Hnb].
  - rewrite (Nat.min_r b n) by lia. destruct (bro_run B st (slice D pos n)) as [|o u|o st'].
    + intros; discriminate.
    + destruct (_ <? _); [intros; discriminate|]. destruct (process_metadata ms o) as [ms'| |]; try (intros; discriminate).
      destruct (negb _); [intros; discriminate|]. destruct (negb _); [intros; discriminate|]. destruct (negb _); [intros; discriminate|]. reflexivity.
    + destruct (_ <? _); [intros; discriminate|]. destruct (process_metadata ms o) as [ms'| |]; try (intros; discriminate).
      destruct (n <=? N)%nat eqn:X; [intros; discriminate|]. apply Nat.leb_gt in X. lia.
  - rewrite (Nat.min_l b n) by lia. rewrite (slice_app D pos b n) by lia. rewrite bro_run_app.
    destruct (bro_run B st (slice D pos b)) as [|o u|o st'] eqn:R.
    + intros; discriminate.
    + destruct (_ <? _); [intros; discriminate|]. destruct (process_metadata ms o) as [ms'| |]; try (intros; discriminate).
      destruct (negb _); [intros; discriminate|]. destruct (negb _); [intros; discriminate|]. destruct (negb _); [intros; discriminate|]. reflexivity.
    + replace (n <=? N)%nat with true by (symmetry; apply Nat.leb_le; lia).
      rewrite !(process_metadata_fold ms) by assumption.
      assert (Sz : (length (slice D pos b) = b - pos)%nat) by (apply slice_length; lia).
      destruct (Z.ltb_spec size (out + Z.of_nat (length o))) as [L|L].
      { intros x q. destruct (bro_run B st' (slice D b n)) as [|o' u|o' st'']; [discriminate| |]; rewrite app_length;
          (destruct (Z.ltb_spec size (out + Z.of_nat (length o + length o'))); [discriminate|lia]). }
      destruct (pfold ms o) as [ms'| |] eqn:P.
      * split; [cbn [mdinv]; split; [lia|split; [lia|exact (pfold_minv _ _ _ Hi P)]]|].
        intros x q. cbn [mdcall]. unfold md_brotli. rewrite (Nat.min_r N n) by lia. rewrite Nat.max_r by lia.
        destruct (bro_run B st' (slice D b n)) as [|o' u|o' st'']; [split; discriminate| |].
        { rewrite (process_metadata_fold ms') by (exact (pfold_minv _ _ _ Hi P)). rewrite (process_metadata_fold ms) by exact Hi.
          rewrite pfold_app, P, app_length, Sz. rewrite <- Z.add_assoc, <- Nat2Z.inj_add.
          replace (b + u)%nat with (pos + (b - pos + u))%nat by lia. reflexivity. }
        { replace (n <=? N)%nat with true by (symmetry; apply Nat.leb_le; lia).
          repeat match goal with |- context [if ?c then _ else _] => destruct c | |- context [process_metadata ?m ?x] => destruct (process_metadata m x) end; split; discriminate. }
      * intros x q. destruct (bro_run B st' (slice D b n)) as [|o' u|o' st'']; [discriminate| |]; destruct (_ <? _); try discriminate;
          rewrite (process_metadata_fold ms) by exact Hi; rewrite pfold_app, P; discriminate.
      * destruct (pfold_not_stuck _ _ P).
Qed.

Lemma md_length_stable B D n N b : bytes D -> (1 < n)%nat -> (n <= N <= length D)%nat -> (b <= N)%nat ->
  match @md_length B D n b with
  | RDone x q => @md_length B D n N = RDone x q
  | RFail => forall x q, @md_length B D n N <> RDone x q
  | RMore s' => mdinv n s' b /\ forall x q, mdcall B D n s' N = RDone x q <-> @md_length B D n N = RDone x q
  end.
Proof.
  intros Hb H1 Hn HbN. unfold md_length. rewrite (slice_app D 0 b N) by lia. rewrite decode_base128_more.
  destruct (decode_base128 (slice D 0 b)) as [v rest| |] eqn:E.
  - destruct (decode_slice_ok D 0 b v rest Hb ltac:(lia) E) as (_ & H & _).
    rewrite app_length, slice_length by lia. replace (N - (length rest + (N - b)))%nat with (b - length rest)%nat by lia. cbv zeta.
    destruct (Nat.ltb_spec n (b - length rest)); [intros; discriminate|]. destruct (n =? b - length rest)%nat; [intros; discriminate|].
    apply md_brotli_stable with (a := b); auto; try lia. apply m_init_minv.
  - split; [exact H1|]. intros x q. cbn [mdcall]. unfold md_length. rewrite (slice_app D 0 b N) by lia. rewrite decode_base128_more, E. reflexivity.
  - intros; discriminate.
Qed.

Lemma mdcall_stable B D n N : bytes D -> (n <= N <= length D)%nat -> stable (mdcall B D n) (mdinv n) N.
Proof.
  intros Hb Hn s a Hi b Hab. destruct s as [| |st size out ms pos]; cbn [mdcall mdinv] in *.
  - destruct (Nat.eqb_spec n 0); [reflexivity|]. destruct (Nat.eqb_spec n 1) as [H1|H1].
    + destruct (Nat.eqb_spec b 0) as [->|].
      * split; [exact I|]. intros x q. cbn [mdcall]. destruct (Nat.eqb_spec n 0); [lia|]. destruct (Nat.eqb_spec n 1); [|lia]. reflexivity.
      * destruct (Nat.eqb_spec N 0); [lia|]. destruct (process_metadata _ _) as [ms| |]; try (intros; discriminate). destruct (can_finish ms); [reflexivity|intros; discriminate].
    + apply md_length_stable; auto; lia.
  - apply md_length_stable; auto; lia.
  - destruct Hi as (A1 & A2 & A3). apply md_brotli_stable with (a := a); auto; lia.
Qed.

Lemma encode_base128_nonempty v : (1 <= length (encode_base128 v))%nat.
Proof. unfold encode_base128. cbn [encode_base128_loop length]. lia. Qed.
