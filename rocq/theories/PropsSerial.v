(** C55: writing the file while the stream is still being read. *)
From Verif Require Import Base JpegModel JBitModel JHuffModel JSegModel JScanModel JFileModel OutputModel OutputProofs SerialModel SerialSpec SerialProofs1 SerialProofs2 SerialProofs3 SerialProofs4.
From Verif Require Import PropsJpegScan.

(** The serializer is called any number of times, with any buffer sizes: first while
    the parser has announced neither coefficients section, then on views that agree with the
    final image [J] as far as the parser has come.  Scans are written row by row, in any
    number of portions.  No call fails, undefined behaviour is never met, what was delivered
    is a beginning of the file WriteJpeg makes of [J], "done" means that it is all of it, and
    once the parser was seen to be done everything is delivered or queued.  That the
    parser's views agree with the final image is shown in PropsProgress.v. *)
Theorem C55_consistent_views_give_the_file : forall J out before calls s o ss,
  shaped J -> JFileModel.write_jpeg J = JOk out ->
  Forall (fun c => waiting (fst c)) before -> Forall (fun c => consistent J (fst c)) calls ->
  serialize_calls real_serializer (mkSS GInit []) NeedsInput (before ++ calls) = (s, o, ss) ->
  s <> Err /\ undefined ss = false /\ (exists rest, out = o ++ rest) /\ (s = Done -> o = out) /\
  ((exists c, In c calls /\ v_done (fst c) = true) -> o ++ concat (ss_queue ss) = out).
Proof.
  intros J out before calls s o ss HS HW HB HC E. rewrite calls_app, (calls_waiting before NeedsInput HB eq_refl) in E.
  destruct (serialize_calls real_serializer (mkSS GInit []) NeedsInput calls) as [[s2 o2] ss2] eqn:E2. injection E as <- <- <-. cbn [Datatypes.app] in *.
  destruct (calls_views J out HS HW calls (mkSS GInit []) NeedsInput [] HC eq_refl ltac:(discriminate) ltac:(discriminate) _ _ _ E2) as (A & B & C & D & F). cbn [Datatypes.app ss_stage ss_queue] in *.
  split; [exact A|]. split; [|split; [|split]].
  - unfold undefined. pose proof (sinv_defined _ _ _ _ B) as K. destruct (ss_stage ss2) as [|i [| |]| |]; try reflexivity. contradiction.
  - destruct (ss_stage ss2) as [|i st| |]; cbn [sinv] in B; [|destruct B as (_ & rest & _ & <-)|subst out|contradiction].
    + apply app_eq_nil in B as [-> _]. exists out. reflexivity.
    + exists (concat (ss_queue ss2) ++ rest). rewrite app_assoc. reflexivity.
    + exists (concat (ss_queue ss2)). reflexivity.
  - intros H. destruct (C H) as [C1 C2]. rewrite C1, C2 in B. cbn in B. rewrite app_nil_r in B. exact B.
  - intros H. rewrite (D (or_introl H)) in B. exact B.
Qed.
Print Assumptions C55_consistent_views_give_the_file.

(** It ends: one more call with room for the file, on the finished parser, delivers all. *)
Theorem C55_consistent_views_complete : forall J out before calls cap s o ss,
  shaped J -> JFileModel.write_jpeg J = JOk out ->
  Forall (fun c => waiting (fst c)) before -> Forall (fun c => consistent J (fst c)) calls -> (length out < cap)%nat ->
  serialize_calls real_serializer (mkSS GInit []) NeedsInput (before ++ calls ++ [(done_view J, cap); (done_view J, cap)]) = (s, o, ss) ->
  s = Done /\ o = out.
Proof.
  intros J out before calls cap s o ss HS HW HB HC HL E. set (dv := (done_view J, cap)) in *.
  assert (HD : consistent J (done_view J)) by (unfold consistent; cbn; repeat split; intros; discriminate).
  rewrite app_assoc in E. change [dv; dv] with ([dv] ++ [dv]) in E. rewrite app_assoc, calls_app in E.
  destruct (serialize_calls real_serializer (mkSS GInit []) NeedsInput ((before ++ calls) ++ [dv])) as [[s1 o1] ss1] eqn:E1.
  assert (HC1 : Forall (fun c => consistent J (fst c)) (calls ++ [dv])) by (apply Forall_app; split; [exact HC|]; constructor; [exact HD|constructor]).
  pose proof E1 as E1'. rewrite <- app_assoc in E1'.
  rewrite calls_app, (calls_waiting before NeedsInput HB eq_refl) in E1'.
  destruct (serialize_calls real_serializer (mkSS GInit []) NeedsInput (calls ++ [dv])) as [[s2 o2] ss2] eqn:E2. cbn [Datatypes.app] in E1'. injection E1' as -> -> ->.
  destruct (calls_views J out HS HW (calls ++ [dv]) (mkSS GInit []) NeedsInput [] HC1 eq_refl ltac:(discriminate) ltac:(discriminate) _ _ _ E2) as (_ & B & _ & D & _).
  assert (G : ss_stage ss1 = GDone) by (apply D; left; exists dv; split; [apply in_or_app; right; left; reflexivity|reflexivity]).
  rewrite G in B. cbn [sinv Datatypes.app] in B. cbn [serialize_calls dv] in E. destruct (serialize real_serializer (done_view J) ss1 cap) as [[s3 o3] ss3] eqn:E3. injection E as <- <- <-.
  rewrite app_nil_r. pose proof E3 as E4. unfold serialize in E3. rewrite G in E3. destruct (push_output (ss_queue ss1) cap) as [[oo q] c2] eqn:Ep. injection E3 as <- <- <-.
  destruct (serialize_spec _ _ _ _ _ _ _ E4) as (k & p & g & F1 & F2 & F3 & F4 & F5 & F6). rewrite G in F1. cbn [emit] in F1. injection F1 as <- <- <-. cbn [ss_queue] in *. rewrite app_nil_r in F4.
  assert (LQ : (length (concat (ss_queue ss1)) < cap)%nat) by (apply (f_equal (@length Z)) in B; rewrite app_length in B; lia).
  assert (Q : q = []).
  { clear - Ep LQ. revert cap oo q c2 Ep LQ. induction (ss_queue ss1) as [|c r IH]; intros cap oo q c2 Ep LQ; cbn [push_output] in Ep; [injection Ep as _ <- _; reflexivity|].
    cbn [concat] in LQ. rewrite app_length in LQ. destruct (Nat.eqb_spec cap 0); [lia|]. destruct (Nat.leb_spec (length c) cap); [|lia].
    destruct (push_output r (cap - length c)) as [[o' q'] c'] eqn:E. injection Ep as _ <- _. eapply IH; [exact E|lia]. }
  subst q. cbn [concat] in F4. rewrite app_nil_r in F4. split; [reflexivity|]. rewrite F4. exact B.
Qed.
Print Assumptions C55_consistent_views_complete.

(** * A progressive file of two MCU rows *)
Definition ps_block (d a : Z) : list Z := d :: a :: repeat 0 62.
Definition ps_blocks : list (list Z) := [ps_block 2 1; ps_block 3 0; ps_block 1 (-1); ps_block (-4) 2].
Definition ps_jpeg (coeffs : list (list Z)) : jpeg :=
  mkJpeg 16 16 0 1 1 2 2 0 [] [] [mkQT (repeat 1 64) 0 0 true] [mkHC ex_dc_counts ex_dc_values 0 false; mkHC ex_ac_counts ex_ac_values 16 true]
    [mkComp 1 1 1 0 2 2 coeffs] [mkSI 0 0 0 0 [mkCS 0 0 0] [] []; mkSI 1 63 0 0 [mkCS 0 0 0] [] []]
    [219; 194; 196; 218; 218; 217] [] [] false [].

(** DC coefficients of the first row; all of them and the AC coefficients of the first row; everything. *)
Definition ps_views : list view :=
  [mkView false true false 1 (ps_jpeg [ps_block 2 0; ps_block 3 0; ps_block 0 0; ps_block 0 0]) None;
   mkView false true true 1 (ps_jpeg [ps_block 2 1; ps_block 3 0; ps_block 1 0; ps_block (-4) 0]) None;
   done_view (ps_jpeg ps_blocks)].
Definition ps_wait : view := mkView false false false 0 (ps_jpeg []) None.

Lemma ps_ready_spec full n c C : (forall i, (Z.of_nat i < n) -> (i < length (c_coeffs C))%nat ->
    match nth_error (c_coeffs c) i, nth_error (c_coeffs C) i with
    | Some b, Some B => if (full : bool) then b = B else nth_error b 0 = nth_error B 0
    | _, _ => False end) -> ready full n c C.
Proof.
  intros H i B Hi E. specialize (H (Z.to_nat i)). rewrite E in H. assert (L : nth_error (c_coeffs C) (Z.to_nat i) <> None) by congruence. apply nth_error_Some in L.
  specialize (H ltac:(lia) L). destruct (nth_error (c_coeffs c) (Z.to_nat i)) as [b|]; [|contradiction]. exists b. split; [reflexivity|exact H].
Qed.

(** The hypotheses hold, 160 bytes are delivered before the parser is done, and the bytes are those of the file. *)
Example C55_case : let J := ps_jpeg ps_blocks in
  shaped J /\ waiting ps_wait /\ Forall (consistent J) ps_views /\
  exists out, JFileModel.write_jpeg J = JOk out /\
  let run caps := fst (serialize_calls real_serializer (mkSS GInit []) NeedsInput (combine (ps_wait :: ps_views ++ [done_view J]) caps)) in
  run [400; 400; 400; 400; 400]%nat = (Done, out) /\ run [1; 150; 3; 5; 400]%nat = (Done, out) /\
  (exists o, fst (serialize_calls real_serializer (mkSS GInit []) NeedsInput [(ps_wait, 400%nat); (nth 0 ps_views ps_wait, 400%nat)]) = (NeedsInput, o) /\ length o = 160%nat).
Proof.
  cbv zeta. split; [|split; [|split]].
  - unfold shaped. cbn. repeat split; try lia. repeat constructor.
  - vm_compute. auto.
  - assert (R : forall full n c C, c_coeffs C = ps_blocks -> n <= 4 -> (forall i, (i < 4)%nat -> Z.of_nat i < n ->
        match nth_error (c_coeffs c) i, nth_error ps_blocks i with Some b, Some B => if (full : bool) then b = B else nth_error b 0 = nth_error B 0 | _, _ => False end) -> ready full n c C).
    { intros full n c C E Hn H. apply ps_ready_spec. rewrite E. intros i Hi L. apply H; [exact L|exact Hi]. }
    repeat apply Forall_cons; [| | |constructor].
    + unfold consistent. cbn [v_done v_dc v_ac v_row v_jpeg]. repeat split; try discriminate; try (vm_compute; lia; fail); try (vm_compute; reflexivity).
      constructor; [|constructor]. apply R; [reflexivity|vm_compute; discriminate|]. intros i L. destruct i as [|[|[|[|i]]]]; try lia; vm_compute; intros; try discriminate; reflexivity.
    + unfold consistent. cbn [v_done v_dc v_ac v_row v_jpeg]. repeat split; try discriminate; try (vm_compute; lia; fail); try (vm_compute; reflexivity).
      constructor; [|constructor]. split; apply R; try reflexivity; try (vm_compute; discriminate); intros i L; destruct i as [|[|[|[|i]]]]; try lia; vm_compute; intros; try discriminate; reflexivity.
    + unfold consistent. cbn. repeat split; intros; discriminate.
  - eexists. split; [vm_compute; reflexivity|]. split; [vm_compute; reflexivity|]. split; [vm_compute; reflexivity|]. eexists. split; vm_compute; reflexivity.
Qed.

(** * The announcement of the AC section is taken for the end of the DC section *)
(** ReadTag (brunsli_decode.cc:1046-1063) notes a tag as met before its section is read, and
    does not ask for an order of the sections.  A stream in which the JPEG internals are
    followed by the tag of the AC section lets the serializer start with no coefficients at
    all: it takes the DC coefficients for complete and reads them from empty vectors. *)
Theorem C55_announced_ac_without_coefficients_refuted : exists v cap s o ss,
  frame (v_jpeg v) = frame (ps_jpeg ps_blocks) /\ v_ac v = true /\ v_done v = false /\ v_dc v = false /\ c_coeffs (comp_at (j_comps (v_jpeg v)) 0) = [] /\
  serialize_calls real_serializer (mkSS GInit []) NeedsInput [(v, cap)] = (s, o, ss) /\ undefined ss = true.
Proof.
  exists (mkView false false true 0 (ps_jpeg []) None), 400%nat. eexists _, _, _. repeat split; try reflexivity; vm_compute; reflexivity.
Qed.
Print Assumptions C55_announced_ac_without_coefficients_refuted.
