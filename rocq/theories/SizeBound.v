(** How long the coded sections can get. *)
From Verif Require Import Base BitModel BitProofs CodesModel CodesProofs ProgLogic EntropyModel EntropyProofs LehmerModel HistModel HistProofs CtxTables CoefModel CoefProofs DCProofs ACProofs
  JBitModel HuffModel HStoreModel CMapModel CMapProofs1 CMapProofs2 HSecModel HSecProofs HeaderModel HeaderProofs Encoder EncodeTotal2.

(** * Sections of bits: the reader never uses more bits than it asked for *)

(** On every path the sum of the announced numbers of bits is at most [N]; the results satisfy [P]. *)
Fixpoint needs {A} (N : nat) (P : A -> Prop) (p : prog A) : Prop :=
  match p with
  | Ret a => P a
  | Fail => True
  | Take n f k => forall v, 0 <= v < 2 ^ Z.of_nat n -> needs N P (k v)
  | Need n q => (n <= N)%nat /\ needs (N - n) P q
  | Chk q => needs N P q
  end.

Lemma needs_uses {A} (P : A -> Prop) p : forall N b l a r, bok b p -> needs N P p -> arun false p l = Some (a, r) -> (length l <= length r + b + N)%nat.
Proof.
  induction p as [a0| |n f k IH|n p IH|p IH]; intros N b l a r B D E; cbn [bok needs arun andb] in *.
  - injection E as <- <-. lia.
  - discriminate E.
  - pose proof (peek_range n l) as R. destruct B as (B1 & _ & B2). destruct (B2 _ R) as [F B3]. destruct (Nat.leb_spec (f (peek n l)) (length l)) as [L|]; [|discriminate E].
    pose proof (IH _ _ _ _ _ _ B3 (D _ R) E) as H. rewrite skipn_length in H. lia.
  - destruct D as [D1 D2]. pose proof (IH _ _ _ _ _ B D2 E). lia.
  - exact (IH _ _ _ _ _ B D E).
Qed.

Lemma needs_mono {A} (P Q : A -> Prop) p : (forall a, P a -> Q a) -> forall N M, (N <= M)%nat -> needs N P p -> needs M Q p.
Proof.
  intros HP. induction p as [a0| |n f k IH|n p IH|p IH]; intros N M L D; cbn [needs] in *; auto.
  - intros v V. apply (IH v N); auto.
  - destruct D as [D1 D2]. split; [lia|]. apply (IH (N - n)%nat); auto. lia.
  - apply (IH N); auto.
Qed.

Lemma needs_pall {A} (P Q : A -> Prop) p : forall N, needs N Q p -> pall P p -> needs N P p.
Proof.
  induction p as [a0| |n f k IH|n p IH|p IH]; intros N D H; cbn [needs pall] in *; auto.
  destruct D as [D1 D2]. split; auto.
Qed.

Lemma needs_bind {A B} (P : A -> Prop) (Q : B -> Prop) p (g : A -> prog B) M : forall N, needs N P p -> (forall a, P a -> needs M Q (g a)) -> needs (N + M) Q (bind p g).
Proof.
  induction p as [a0| |n f k IH|n p IH|p IH]; intros N D G; cbn [needs bind] in *; auto.
  - eapply needs_mono; [| |apply G, D]; [auto|lia].
  - destruct D as [D1 D2]. split; [lia|]. replace (N + M - n)%nat with (N - n + M)%nat by lia. apply IH; auto.
Qed.

Definition tt_ {A} (_ : A) : Prop := True.

Lemma needs_bind0 {A B} (Q : B -> Prop) p (g : A -> prog B) M : needs 0 tt_ p -> (forall a, needs M Q (g a)) -> needs M Q (bind p g).
Proof. intros D G. apply (needs_bind tt_ Q p g M 0 D). intros a _. apply G. Qed.

Lemma needs_schemes n : needs 0 tt_ (read_schemes n).
Proof. induction n as [|n IH]; cbn [read_schemes Read needs]; [exact Logic.I|]. intros v _. destruct (7 <=? v); [exact Logic.I|]. apply needs_bind0; [exact IH|]. intros a. exact Logic.I. Qed.

Lemma needs_var_len : needs 0 tt_ decode_var_len_uint8.
Proof. unfold decode_var_len_uint8, Read. cbn [needs]. intros v _. destruct (v =? 0); [exact Logic.I|]. cbn [needs]. intros w _. destruct (w =? 0); [exact Logic.I|]. cbn [needs]. intros x _. exact Logic.I. Qed.

Lemma needs_short fuel : forall tree pos delta, needs 0 tt_ (read_short fuel tree pos delta).
Proof.
  induction fuel as [|f IH]; intros tree pos delta; cbn [read_short Read needs]; [exact Logic.I|]. intros v _. cbv zeta. destruct (nth_error _ _) as [d|]; [|exact Logic.I]. destruct (0 <? d); [apply IH|exact Logic.I].
Qed.
Lemma needs_logs n : needs 0 tt_ (read_logs n).
Proof. induction n as [|n IH]; cbn [read_logs]; [exact Logic.I|]. apply needs_bind0; [apply needs_short|]. intros a. apply needs_bind0; [exact IH|]. intros b. exact Logic.I. Qed.
Lemma needs_counts logs : forall i omit, needs 0 tt_ (HistModel.read_counts i omit logs).
Proof.
  induction logs as [|c r IH]; intros i omit; cbn [HistModel.read_counts]; [exact Logic.I|]. cbv zeta.
  destruct (Nat.eqb i omit); [apply needs_bind0; [apply IH|intros; exact Logic.I]|]. destruct (c =? 0); [apply needs_bind0; [apply IH|intros; exact Logic.I]|]. destruct (c =? 1); [apply needs_bind0; [apply IH|intros; exact Logic.I]|].
  cbn [Read needs]. intros v _. apply needs_bind0; [apply IH|intros; exact Logic.I].
Qed.
Lemma needs_histogram : needs 0 tt_ read_histogram.
Proof.
  unfold read_histogram. cbv zeta. unfold Read. cbn [needs]. intros v _. destruct (v =? 1).
  - cbn [needs]. intros ns _ r0 _. destruct (ns =? 0); [exact Logic.I|]. cbn [needs]. intros r1 _. destruct (Nat.eqb _ _); [exact Logic.I|]. cbn [needs]. intros w _. exact Logic.I.
  - apply needs_bind0; [apply needs_short|]. intros n. apply needs_bind0; [apply needs_logs|]. intros logs. apply needs_bind0; [apply needs_counts|]. intros cs. destruct (_ <=? _); exact Logic.I.
Qed.

Lemma needs_codes n : needs (n * 207) tt_ (read_codes n).
Proof.
  induction n as [|n IH]; cbn [read_codes]; [exact Logic.I|]. cbn [needs]. split; [lia|]. replace (S n * 207 - 207)%nat with (n * 207)%nat by lia. apply needs_bind0; [exact needs_histogram|]. intros h.
  destruct (ans_init _ _) as [[t []]|]; try exact Logic.I. rewrite <- (Nat.add_0_r (n * 207)). apply (needs_bind tt_ _ _ _ 0 (n * 207)); [exact IH|]. intros; exact Logic.I.
Qed.

Lemma needs_look {A} n t base (k : Z -> prog A) : (forall v, needs 0 tt_ (k v)) -> needs 0 tt_ (look n t base k).
Proof. intros H. unfold look. cbn [needs]. intros v _. destruct (aget t (base + v)) as [e| |]; try exact Logic.I. apply H. Qed.
Lemma needs_sym t : needs 0 tt_ (read_sym t).
Proof. unfold read_sym. cbn [needs]. intros v _. destruct (aget t v) as [e| |]; try exact Logic.I. destruct (kRootBits <? fst e); [|exact Logic.I]. apply needs_look. intros; exact Logic.I. Qed.
Lemma needs_clcl order : forall cl space num, needs 0 tt_ (read_clcl order cl space num).
Proof. induction order as [|i r IH]; intros cl space num; cbn [read_clcl]; [exact Logic.I|]. destruct (0 <? space); [|exact Logic.I]. apply needs_look. intros v. destruct (v =? 0); apply IH. Qed.
Lemma needs_lens_loop fuel : forall t n acc prev rp rlen space, needs 0 tt_ (read_lens_loop fuel t n acc prev rp rlen space).
Proof.
  induction fuel as [|f IH]; intros t n acc prev rp rlen space; cbn [read_lens_loop].
  - destruct (_ && _)%bool; [exact Logic.I|]. destruct (space =? 0); exact Logic.I.
  - destruct (_ && _)%bool; [|destruct (space =? 0); exact Logic.I]. apply needs_look. intros cl. destruct (cl <? 16); [destruct (cl =? 0); apply IH|]. cbv zeta. unfold Read. cbn [needs]. intros x _.
    match goal with |- needs _ _ (if ?b then _ else _) => destruct b end; [exact Logic.I|apply IH].
Qed.
Lemma needs_read_syms n : forall bits al, needs 0 tt_ (read_syms n bits al).
Proof. induction n as [|n IH]; intros bits al; cbn [read_syms Read needs]; [exact Logic.I|]. intros v _. destruct (_ <=? _); [exact Logic.I|]. apply needs_bind0; [apply IH|]. intros; exact Logic.I. Qed.
Lemma needs_code arena n : needs 0 tt_ (read_code arena n).
Proof.
  unfold read_code. destruct (_ <? _); [exact Logic.I|]. unfold Read at 1. cbn [needs]. intros kind _. destruct (kind =? 1).
  - unfold read_simple, Read. cbn [needs]. intros ns _. apply needs_bind0; [apply needs_read_syms|]. intros syms. destruct (distinct syms); [|exact Logic.I]. cbv zeta.
    destruct (ns =? 3); [cbn [needs]; intros sel _|]; destruct (simple_entries _ _); exact Logic.I.
  - apply needs_bind0; [apply needs_clcl|]. intros [[cl space] num]. destruct (_ || _); [|exact Logic.I]. apply needs_bind0; [|intros lens; cbn [needs]; destruct (let* c := count_lens lens (repeat 0 16) in _) as [[t s]| |]; exact Logic.I].
    unfold read_lens. destruct (let* c := count_lens cl (repeat 0 16) in _) as [[t s]| |]; try exact Logic.I. apply needs_lens_loop.
Qed.

Lemma needs_cmap_code arena nh : needs (207 + nh * 8) (fun c => fst c <= 16) (read_cmap_code arena nh).
Proof.
  unfold read_cmap_code. cbv zeta. cbn [needs]. split; [lia|]. rewrite Nat.sub_diag. unfold Read. cbn [needs]. intros u _. destruct (u =? 0).
  - rewrite <- (Nat.add_0_r 0) at 1. apply (needs_bind tt_); [apply needs_code|]. intros a _. cbn [needs fst]. lia.
  - cbn [needs]. intros m Hm. change (2 ^ Z.of_nat 4) with 16 in Hm. rewrite <- (Nat.add_0_r 0) at 1. apply (needs_bind tt_); [apply needs_code|]. intros a _. cbn [needs fst]. lia.
Qed.

Lemma needs_cmap mp n t : mp <= 16 -> forall fuel acc, needs (fuel * 32) tt_ (read_cmap fuel t mp n acc).
Proof.
  intros HM. induction fuel as [|f IH]; intros acc; cbn [read_cmap]; (destruct (length acc <? n)%nat; [|cbn [Read needs]; intros; exact Logic.I]); [exact Logic.I|].
  cbn [needs]. split; [lia|]. apply needs_bind0; [apply needs_sym|]. intros code. assert (L : (f * 32 <= S f * 32 - (15 + Z.to_nat mp + 1))%nat) by lia.
  assert (I : forall acc, needs (S f * 32 - (15 + Z.to_nat mp + 1)) tt_ (read_cmap f t mp n acc)) by (intros; eapply needs_mono; [|exact L|apply IH]; auto).
  destruct (code =? 0); [apply I|]. destruct (code <=? mp); [|apply I]. cbn [Read needs]. intros x _. cbv zeta. destruct (_ <? _); [exact Logic.I|apply I].
Qed.

Lemma needs_section arena nc M : (forall s, schemes_ok nc s -> (map_len s <= M)%nat) ->
  needs (3 * nc + (11 + (207 + 256 * 8 + M * 32 + 256 * 207))) tt_ (read_histogram_section arena nc).
Proof.
  intros HM. unfold read_histogram_section. cbn [needs]. split; [lia|]. replace (3 * nc + (11 + (207 + 256 * 8 + M * 32 + 256 * 207)) - 3 * nc)%nat with (0 + (11 + (207 + 256 * 8 + M * 32 + 256 * 207)))%nat by lia.
  apply (needs_bind (schemes_ok nc)); [apply (needs_pall _ tt_); [apply needs_schemes|eapply pub_pall; apply read_schemes_pub]|]. intros s Hs. specialize (HM s Hs). cbn [needs]. split; [lia|].
  replace (11 + (207 + 256 * 8 + M * 32 + 256 * 207) - 11)%nat with (0 + (207 + 256 * 8 + M * 32 + 256 * 207))%nat by lia.
  apply (needs_bind (fun v => 0 <= v < 256)); [apply (needs_pall _ tt_); [apply needs_var_len|apply decode_var_len_uint8_total]|]. intros v Hv. cbn [needs]. cbv zeta.
  apply (needs_bind tt_ _ _ _ (256 * 207) (207 + 256 * 8 + M * 32)).
  - destruct (1 <? Z.to_nat (v + 1))%nat; [|exact Logic.I]. unfold read_context_map. eapply needs_mono with (P := tt_) (N := (207 + Z.to_nat (v + 1) * 8 + map_len s * 32)%nat); [auto|lia|].
    apply (needs_bind (fun c => fst c <= 16)); [apply needs_cmap_code|]. intros c Hc. apply needs_cmap. exact Hc.
  - intros cmap _. eapply needs_mono with (P := tt_) (N := (Z.to_nat (v + 1) * 207 + 0)%nat); [auto|lia|]. apply (needs_bind tt_); [apply needs_codes|]. intros; exact Logic.I.
Qed.

Lemma map_len_small s nc : (nc <= 4)%nat -> schemes_ok nc s -> Z.of_nat (map_len s) <= 14868.
Proof.
  intros N [L _]. unfold map_len, contexts_of. assert (fold_right Nat.add 0 (map scheme_size s) <= 412 * length s)%nat.
  { clear. induction s as [|x r IH]; [cbn; lia|]. cbn [map fold_right length]. pose proof (scheme_le x). lia. }
  lia.
Qed.

(** The histogram section: below 66400 bytes. *)
Lemma histogram_section_size nc fs x arena : (1 <= nc <= 4)%nat -> 648 <= Z.of_nat (length arena) <= 65535 ->
  arun false (read_histogram_section arena nc) (fields_bits fs ++ []) = Some (x, []) -> Z.of_nat (length (pack (fields_bits fs))) <= 66400.
Proof.
  intros N A E. rewrite app_nil_r in E. destruct (read_section_total arena nc ltac:(lia) A) as [B _].
  pose proof (needs_uses tt_ _ _ _ _ _ _ B (needs_section arena nc (Z.to_nat 14868) ltac:(intros s Hs; pose proof (map_len_small s nc ltac:(lia) Hs); lia)) E) as H.
  cbn [length] in H. rewrite pack_length. assert (Z.of_nat (length (fields_bits fs)) <= 12 + 11 + 207 + 2048 + 14868 * 32 + 52992) by lia. clear - H0. dlia.
Qed.

(** * Sections of words: at most one code word per coded item *)

Lemma add_item_length d it : (length (ds_cws (add_item d it)) <= S (length (ds_cws d)))%nat.
Proof.
  assert (SW : forall c i v, length (set_word c i v) = length c) by (intros c i v; unfold set_word; destruct (nth_error c i); [apply upd_length|reflexivity]).
  destruct it as [p b|c s|n v]; cbn [add_item].
  - unfold add_bit. cbv zeta. match goal with |- context [if ?b then mkDS _ _ _ _ _ _ _ _ else _] => destruct b end; cbn [ds_cws]; [rewrite app_length, SW; cbn [length]; lia|lia].
  - unfold add_code. cbn [ds_cws]. rewrite app_length. cbn [length]. lia.
  - unfold add_bits. cbv zeta. destruct (_ <? _); cbn [ds_cws]; [rewrite app_length, upd_length; cbn [length]; lia|lia].
Qed.
Lemma add_items_length l : forall d, (length (ds_cws (fold_left add_item l d)) <= length l + length (ds_cws d))%nat.
Proof. induction l as [|it l IH]; intros d; cbn [fold_left length]; [lia|]. specialize (IH (add_item d it)). pose proof (add_item_length d it). lia. Qed.
Lemma ans_pass_length cws : length (snd (ans_pass cws)) = length cws.
Proof.
  induction cws as [|w r IH]; [reflexivity|]. cbn [ans_pass]. destruct (ans_pass r) as [state r']. cbn [snd] in IH. destruct (cw_nbits w =? 0); [destruct (ans_put _ _ _) as [[s b] n]|]; cbn [snd length]; lia.
Qed.
Lemma encode_items_length l : (length (encode_items l) <= length l + 5)%nat.
Proof.
  unfold encode_items, encode_code_words. set (d := fold_left add_item l ds_init). pose proof (add_items_length l ds_init) as H. fold d in H. cbn [ds_init ds_cws length] in H.
  assert (L : length (flush_arith d (flush_bit_writer d)) = length (ds_cws d)).
  { unfold flush_arith. cbv zeta. assert (SW : length (flush_bit_writer d) = length (ds_cws d)) by (unfold flush_bit_writer, set_word; destruct (nth_error _ _); [apply upd_length|reflexivity]).
    destruct (nth_error (flush_bit_writer d) (ds_ac_pos0 d)); match goal with |- context [nth_error ?a ?b] => destruct (nth_error a b) end; rewrite ?upd_length; exact SW. }
  pose proof (ans_pass_length (flush_arith d (flush_bit_writer d))) as A. destruct (ans_pass _) as [state cws']. cbn [snd] in A. cbn [length]. rewrite map_length.
  assert (F : forall (f : code_word -> bool) l, (length (filter f l) <= length l)%nat) by (clear; intros f l; induction l as [|x l IH]; cbn [filter length]; [lia|destruct (f x); cbn [length]; lia]).
  pose proof (F (fun w => negb (cw_nbits w =? 0)) cws'). lia.
Qed.
Lemma words_to_bytes_length ws : length (words_to_bytes ws) = (2 * length ws)%nat.
Proof. induction ws as [|w r IH]; cbn [words_to_bytes length]; lia. Qed.
Lemma words_section_length cmap tables head its : (length (words_section cmap tables head its) <= 2 * (length head + length its) + 10)%nat.
Proof. unfold words_section. rewrite words_to_bytes_length. pose proof (encode_items_length (head ++ map (resolve (map Z.of_nat cmap) tables) its)) as H. rewrite app_length, map_length in H. lia. Qed.

(** * Items per block *)

Lemma enc_bit_length ps i b r : enc_bit ps i b = Some r -> length (fst r) = 1%nat.
Proof. unfold enc_bit. intros E. apply obind_some in E. destruct E as (p & _ & E). apply obind_some in E. destruct E as (ps' & _ & E). apply some_eq in E. subst r. reflexivity. Qed.
Lemma enc_abs_length h v ps idx r : enc_abs h v ps idx = Some r -> (length (fst r) <= 3)%nat.
Proof.
  unfold enc_abs. destruct (v <=? 8); [intros E; apply some_eq in E; subst r; cbn; lia|]. cbv zeta. intros E. apply obind_some in E. destruct E as (q & E1 & E). apply some_eq in E. subst r.
  apply enc_bit_length in E1. cbn [fst length]. rewrite app_length, E1. destruct (0 <? _); cbn [length]; lia.
Qed.

Lemma enc_dc_block_length band st x err ac r : enc_dc_block band st x err ac = Some r -> (length (fst (fst r)) <= 6)%nat.
Proof.
  unfold enc_dc_block. cbv zeta. intros E. apply obind_some in E. destruct E as (ctx & _ & E). apply obind_some in E. destruct E as (r1 & E1 & E). apply enc_bit_length in E1.
  apply obind_some in E. destruct E as (ne & _ & E). apply obind_some in E. destruct E as ([[[items z] s] e] & E2 & E).
  apply obind_some in E. destruct E as (sg & _ & E). apply obind_some in E. destruct E as (ab & _ & E). apply some_eq in E. subst r. cbn [fst]. rewrite app_length, E1.
  assert (length items <= 5)%nat; [|lia].
  match type of E2 with (if ?b then _ else _) = _ => destruct b end; [injection E2 as <- _ _ _; cbn; lia|].
  apply obind_some in E2. destruct E2 as (r2 & Q2 & E2). apply enc_bit_length in Q2. match type of E2 with (if ?b then _ else _) = _ => destruct b end; [injection E2 as <- _ _ _; lia|].
  apply obind_some in E2. destruct E2 as (avg & _ & E2). apply obind_some in E2. destruct E2 as (sctx & _ & E2). apply obind_some in E2. destruct E2 as (r3 & Q3 & E2). apply enc_bit_length in Q3.
  apply obind_some in E2. destruct E2 as (r4 & Q4 & E2). apply enc_abs_length in Q4. injection E2 as <- _ _ _. rewrite !app_length. lia.
Qed.

Lemma enc_dc_length ms errs planes vs : forall sts flags r, enc_dc ms errs planes vs sts flags = Some r -> (length (fst r) <= 6 * length vs)%nat.
Proof.
  induction vs as [|[[i y] x] vs IH]; intros sts flags r E; cbn [enc_dc] in E; [apply some_eq in E; subst r; cbn; lia|].
  do 5 (apply obind_some in E; destruct E as (? & _ & E)). cbv zeta in E. do 2 (apply obind_some in E; destruct E as (? & _ & E)). apply obind_some in E. destruct E as ([[items em] st'] & E1 & E). apply enc_dc_block_length in E1. cbn [fst] in E1.
  apply obind_some in E. destruct E as (fl & _ & E). apply obind_some in E. destruct E as (t & E2 & E). apply IH in E2. apply some_eq in E. subst r. cbn [fst length]. rewrite app_length. lia.
Qed.

Lemma enc_nnz_length n : forall v ctx base ps r, enc_nnz n v ctx base ps = Some r -> length (fst r) = n.
Proof.
  induction n as [|n IH]; intros v ctx base ps r E; cbn [enc_nnz] in E; [apply some_eq in E; subst r; reflexivity|]. cbv zeta in E. apply obind_some in E. destruct E as (q & E1 & E). apply enc_bit_length in E1.
  apply obind_some in E. destruct E as (t & E2 & E). apply IH in E2. apply some_eq in E. subst r. cbn [fst]. rewrite app_length. lia.
Qed.

Lemma enc_ac_loop_length legacy ak m bp b last : forall k nz cur st r, enc_ac_loop legacy ak m bp b last k nz cur st = Some r -> (length (fst (fst r)) <= 5 * k)%nat.
Proof.
  induction k as [|k IH]; intros nz cur st r E; cbn [enc_ac_loop] in E; [apply some_eq in E; subst r; cbn; lia|]. cbv zeta in E.
  apply obind_some in E. destruct E as (kn & _ & E). apply obind_some in E. destruct E as (coeff & _ & E). apply obind_some in E. destruct E as (r1 & E1 & E).
  assert (L1 : (length (fst r1) <= 1)%nat).
  { match type of E1 with (if ?b then _ else _) = _ => destruct b end; [|apply some_eq in E1; subst r1; cbn; lia]. apply obind_some in E1. destruct E1 as (bu & _ & E1). apply enc_bit_length in E1. lia. }
  clear E1. match type of E with (if ?b then _ else _) = _ => destruct b end.
  - apply obind_some in E. destruct E as (st2 & _ & E). apply obind_some in E. destruct E as ([[items nz'] st'] & E2 & E). apply IH in E2. cbn [fst] in E2. apply some_eq in E. subst r. cbn [fst]. rewrite app_length. lia.
  - apply obind_some in E. destruct E as (c & _ & E). apply obind_some in E. destruct E as (r2 & E2 & E). apply enc_bit_length in E2. apply obind_some in E. destruct E as (zd & _ & E).
    apply obind_some in E. destruct E as (r3 & E3 & E). apply enc_abs_length in E3. apply obind_some in E. destruct E as (cur' & _ & E). apply obind_some in E. destruct E as (st3 & _ & E).
    apply obind_some in E. destruct E as ([[items nz'] st'] & E4 & E). apply IH in E4. cbn [fst] in E4. apply some_eq in E. subst r. cbn [fst]. rewrite !app_length. lia.
Qed.

Lemma last_nonzero_le order b : forall k l, last_nonzero order b k = Some l -> (l <= k)%nat.
Proof.
  induction k as [|k IH]; intros l E; cbn [last_nonzero] in E; [apply some_eq in E; lia|]. apply obind_some in E. destruct E as (kn & _ & E). apply obind_some in E. destruct E as (c & _ & E).
  destruct (c =? 0); [specialize (IH _ E); lia|apply some_eq in E; lia].
Qed.

Lemma enc_ac_block_length legacy ak m bp empty b st r : enc_ac_block legacy ak m bp empty b st = Some r -> (length (fst r) <= 321)%nat.
Proof.
  unfold enc_ac_block. intros E. apply obind_some in E. destruct E as (last & E1 & E). assert (L : (last <= 63)%nat) by (destruct empty; [apply some_eq in E1; lia|exact (last_nonzero_le _ _ _ _ E1)]).
  apply obind_some in E. destruct E as (r0 & E2 & E). assert (L0 : (length (fst r0) <= 6)%nat).
  { destruct empty; [apply some_eq in E2; subst r0; cbn; lia|]. apply obind_some in E2. destruct E2 as (c & _ & E2). apply enc_nnz_length in E2. lia. }
  cbv zeta in E. apply obind_some in E. destruct E as (st1 & _ & E). apply obind_some in E. destruct E as ([[items nz] st2] & E3 & E). apply enc_ac_loop_length in E3. cbn [fst] in E3.
  apply obind_some in E. destruct E as (st3 & _ & E). apply some_eq in E. subst r. cbn [fst]. rewrite app_length. lia.
Qed.

Lemma enc_ac_length legacy ms aks planes flags vs : forall sts r, enc_ac legacy ms aks planes flags vs sts = Some r -> (length r <= 321 * length vs)%nat.
Proof.
  induction vs as [|[[i y] x] vs IH]; intros sts r E; cbn [enc_ac] in E; [apply some_eq in E; subst r; cbn; lia|].
  do 5 (apply obind_some in E; destruct E as (? & _ & E)). cbv zeta in E. do 2 (apply obind_some in E; destruct E as (? & _ & E)). apply obind_some in E. destruct E as (q & E1 & E). apply enc_ac_block_length in E1.
  apply obind_some in E. destruct E as (t & E2 & E). apply IH in E2. apply some_eq in E. subst r. rewrite app_length. cbn [length]. lia.
Qed.

Lemma coeff_order_length o r : encode_coeff_order o = Some r -> (length r <= 644)%nat.
Proof.
  unfold encode_coeff_order. cbv zeta. destruct (compute_lehmer _) as [[|x l]|]; try discriminate. intros E. apply some_eq in E. subst r.
  assert (V : forall f v, (length (coeff_order_value f v) <= f)%nat) by (induction f as [|f IH]; intros v; cbn [coeff_order_value]; [cbn; lia|]; destruct (7 <=? v); cbn [length]; [specialize (IH (v - 7)); lia|lia]).
  assert (S : forall s n, (length s <= n)%nat -> (length (coeff_order_span s) <= 1 + 10 * n)%nat).
  { intros s n L. unfold coeff_order_span. destruct (forallb _ s); [cbn; lia|]. cbn [length]. assert (length (flat_map (coeff_order_value kFuelOrder) s) <= 10 * length s)%nat; [|lia].
    clear L. induction s as [|a s IH]; cbn [flat_map length]; [lia|]. rewrite app_length. pose proof (V kFuelOrder a) as Va. change kFuelOrder with 10%nat in Va at 2. lia. }
  rewrite !app_length.
  pose proof (S (firstn 15 (bump_tail l)) 15%nat (firstn_le_length _ _)). pose proof (S (firstn 16 (skipn 15 (bump_tail l))) 16%nat (firstn_le_length _ _)).
  pose proof (S (firstn 16 (skipn 31 (bump_tail l))) 16%nat (firstn_le_length _ _)). pose proof (S (firstn 16 (skipn 47 (bump_tail l))) 16%nat (firstn_le_length _ _)). lia.
Qed.
Lemma orders_length orders : forall r, encode_orders orders = Some r -> (length r <= 644 * length orders)%nat.
Proof.
  induction orders as [|o l IH]; intros r E; cbn [encode_orders] in E; [apply some_eq in E; subst r; cbn; lia|]. apply obind_some in E. destruct E as (a & E1 & E). apply coeff_order_length in E1.
  apply obind_some in E. destruct E as (t & E2 & E). apply IH in E2. apply some_eq in E. subst r. rewrite app_length. cbn [length]. lia.
Qed.

(** * Blocks visited *)

Lemma upd_sum l : forall i c, nth_error l i = Some c -> fold_right Nat.add 0%nat (upd l i (S c)) = S (fold_right Nat.add 0%nat l).
Proof. induction l as [|x l IH]; intros [|i] c E; cbn [nth_error upd fold_right] in *; try discriminate E; [injection E as ->; lia|]. rewrite (IH i c E). lia. Qed.
Lemma walk_length ms vs : forall cnt r, walk ms cnt vs = Some r -> fold_right Nat.add 0%nat r = (fold_right Nat.add 0%nat cnt + length vs)%nat.
Proof.
  induction vs as [|[[i y] x] vs IH]; intros cnt r E; cbn [walk] in E; [apply some_eq in E; subst r; cbn [length]; lia|].
  destruct (nth_error ms i) as [m|]; [|discriminate E]. destruct (nth_error cnt i) as [c|] eqn:Ec; [|discriminate E]. match type of E with (if ?b then _ else _) = _ => destruct b; [|discriminate E] end.
  apply IH in E. rewrite E, (upd_sum _ _ _ Ec). cbn [length]. lia.
Qed.
Lemma visits_length ms : metas_ok ms -> length (visits ms) = fold_right Nat.add 0%nat (map (fun m => cm_w m * cm_h m)%nat ms).
Proof.
  intros M. pose proof (walk_length _ _ _ _ (walk_visits ms M)) as H. assert (Z0 : forall n, fold_right Nat.add 0%nat (repeat O n) = O) by (induction n; cbn; auto). rewrite Z0 in H. lia.
Qed.

Lemma encode_dc_length ms planes r : metas_ok ms -> encode_dc ms planes = Some r -> (length (fst r) <= 6 * length (visits ms))%nat.
Proof. intros M E. unfold encode_dc in E. apply obind_some in E. destruct E as (errs & _ & E). exact (enc_dc_length _ _ _ _ _ _ _ E). Qed.
Lemma encode_ac_length legacy ms orders planes flags r : encode_ac legacy ms orders planes flags = Some r ->
  (length (fst r) <= 644 * length orders /\ length (snd r) <= 321 * length (visits ms))%nat.
Proof.
  intros E. unfold encode_ac in E. apply obind_some in E. destruct E as (a & E1 & E). apply obind_some in E. destruct E as (aks & _ & E). apply obind_some in E. destruct E as (t & E2 & E). apply some_eq in E. subst r.
  cbn [fst snd]. split; [exact (orders_length _ _ E1)|exact (enc_ac_length _ _ _ _ _ _ _ _ E2)].
Qed.
