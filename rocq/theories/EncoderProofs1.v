(** Reading back a container written section by section. *)
From Verif Require Import Base CodesModel CodesProofs BitModel BitProofs ProgLogic Stream EntropyModel JpegModel QuantModel QuantProofs InternalsModel InternalsProofs InternalsProofs2 InternalsProofs3 MetaModel MetaProofs PropsMeta
  HeaderModel HeaderProofs Machine ContainerModel GrammarProofs HSecModel CoefModel WordModel WordProofs Decoder DecoderProofs1.

Lemma slice_app D E a b : (b <= length D)%nat -> slice (D ++ E) a b = slice D a b.
Proof.
  intros H. unfold slice. destruct (le_lt_dec b a) as [C|C]; [replace (b - a)%nat with 0%nat by lia; reflexivity|].
  rewrite skipn_app, firstn_app, skipn_length. replace (b - a - (length D - a))%nat with 0%nat by lia. cbn [firstn]. apply app_nil_r.
Qed.

Lemma brun_app {A} D E e avail : (avail <= length D)%nat -> forall (p : bprog A) pos, brun (D ++ E) e p pos avail = brun D e p pos avail.
Proof.
  intros Ha. induction p as [a| |k IH|k IH|acc n k IH|k IH]; intros pos; cbn [brun]; auto.
  - destruct (Nat.ltb_spec pos avail); [|reflexivity]. rewrite app_nth1 by lia. apply IH.
  - rewrite slice_app by exact Ha. destruct (decode_base128 _) as [v rest| |]; auto.
  - cbv zeta. set (pc := Z.to_nat (Z.min n (Z.of_nat (avail - pos)))).
    assert (E1 : slice (D ++ E) pos (pos + pc) = slice D pos (pos + pc)).
    { destruct (Nat.eq_dec pc 0) as [C|C]; [rewrite C, Nat.add_0_r; unfold slice; rewrite Nat.sub_diag; reflexivity|]. apply slice_app. unfold pc in *. lia. }
    rewrite E1. destruct (_ <=? 0); auto.
Qed.

Lemma jcall_app D E n s avail : (n <= avail)%nat -> (avail <= length D)%nat -> jcall (D ++ E) n s avail = jcall D n s avail.
Proof.
  intros H1 H2. assert (F : firstn n (D ++ E) = firstn n D) by (rewrite firstn_app; replace (n - length D)%nat with 0%nat by lia; apply app_nil_r).
  destruct s as [p b pos|x p pos]; cbn [jcall]; unfold jbytes; rewrite ?F.
  - destruct (section_call _ _ _ _ _ _); auto. rewrite brun_app by exact H2. reflexivity.
  - rewrite brun_app by exact H2. reflexivity.
Qed.

Lemma mdcall_app B D E n s avail : (n <= avail)%nat -> (avail <= length D)%nat -> mdcall B (D ++ E) n s avail = mdcall B D n s avail.
Proof.
  intros H1 H2.
  assert (MB : forall st size out ms pos, md_brotli (B := B) (D ++ E) n st size out ms pos avail = md_brotli D n st size out ms pos avail).
  { intros. unfold md_brotli. rewrite slice_app by lia. reflexivity. }
  assert (ML : md_length (B := B) (D ++ E) n avail = md_length D n avail).
  { unfold md_length. rewrite slice_app by exact H2. destruct (decode_base128 _) as [v r| |]; auto. rewrite MB. reflexivity. }
  destruct s as [| |st size out ms pos]; cbn [mdcall]; rewrite ?ML, ?MB; try reflexivity.
  destruct (Nat.eqb_spec n 0); [reflexivity|]. destruct (Nat.eqb_spec n 1); [|reflexivity]. rewrite app_nth1 by lia. reflexivity.
Qed.

Lemma sections_step (B : bodies) D fuel met img pos tag k payload rest img' :
  bytes D -> (pos <= length D)%nat -> skipn pos D = section_marker tag :: encode_base128_fix (Z.of_nat (length payload)) k ++ payload ++ rest ->
  (1 <= k <= 9)%nat -> Z.of_nat (length payload) < 2 ^ (7 * Z.of_nat k) -> 3 <= tag <= 8 -> mem tag met = false ->
  admissible tag (Z.of_nat (length payload)) (tag :: met) = true ->
  bo_call B tag (length payload) img (payload ++ rest ++ repeat 0 (length payload)) (bo_init B tag (length payload) img) (length (payload ++ rest)) = RDone img' (length payload) ->
  mrun D (read_sections B (S fuel) met img) pos (length D) =
  mrun D (if tag =? 8 then MRet img' else read_sections B fuel (tag :: met) img') (pos + (1 + k + length payload)) (length D).
Proof.
  intros Hb Hp Hs Hk Hl Ht Hm Ha Hc. cbn [read_sections mrun].
  pose proof (brun_bfull D Hb (parse_section met) pos _ Hs Hp) as F. unfold parse_section in F |- *.
  rewrite (bfull_tag (fun tag is_section met' => if is_section then BBase128 (fun n => BRet (Some (tag, n), met')) else if known_tag tag then BFail else BBase128 (fun _ => BRet (None, met'))) met pos tag true _ ltac:(lia) Hm) in F.
  cbv iota beta in F. rewrite bfull_base128_fix in F by lia. cbn [bfull] in F. destruct F as (F1 & F2 & F3). rewrite F1. cbn [fst snd]. rewrite !Nat2Z.id.
  replace (known_tag tag) with true by (unfold known_tag; lia). rewrite Ha. cbn [mrun].
  assert (EV : section_view D (S pos + k) (length payload) = payload ++ rest ++ repeat 0 (length payload)) by (unfold section_view; rewrite F2, <- app_assoc; reflexivity).
  rewrite EV. replace (length D - (S pos + k))%nat with (length (payload ++ rest)) by (rewrite <- F2, skipn_length; reflexivity).
  rewrite Hc, Nat.eqb_refl. replace (pos + (1 + k + length payload))%nat with (S pos + k + length payload)%nat by lia. reflexivity.
Qed.
