(** Whole-stream parsers: byte parsers and section bodies run one after the other,
    each of which can be suspended when the visible input is exhausted. *)
From Verif Require Import Base CodesModel CodesProofs BitModel BitProofs Stream BitSteady InternalsProofs3 HeaderModel HeaderProofs.

(** A section body: [n] is the length announced for the section; [call] gets the bytes
    from the start of the section on (padded so that at least [n] exist; only visible
    ones are ever looked at), its state and the number of visible ones; [spos] is how
    many bytes of the section a suspended body has consumed. *)
Inductive mprog (X : Type) : Type :=
| MRet (x : X)
| MFail
| MPeek (n : nat) (k : list Z -> mprog X)
| MB {A : Type} (p : bprog A) (k : A -> mprog X)
| MBegin {S Y : Type} (n : nat) (call : list Z -> S -> nat -> res S Y) (spos : S -> nat) (s : S) (k : Y -> mprog X)
| MIn {S Y : Type} (start n : nat) (call : list Z -> S -> nat -> res S Y) (spos : S -> nat) (s : S) (k : Y -> mprog X).
Arguments MRet {X} x.
Arguments MFail {X}.
Arguments MPeek {X} n k.
Arguments MB {X A} p k.
Arguments MBegin {X S Y} n call spos s k.
Arguments MIn {X S Y} start n call spos s k.

Definition section_view (D : list Z) (start n : nat) : list Z := skipn start D ++ repeat 0 n.

(** One call of DoProcessJpeg (brunsli_decode.cc:2271-2312) up to Stage::DONE, failure or
    NOT_ENOUGH_DATA.  A body must end exactly at the end of its section
    (2178-2180). *)
Fixpoint mrun {X} (D : list Z) (p : mprog X) (pos avail : nat) : res (mprog X * nat) X :=
  match p with
  | MRet x => RDone x pos
  | MFail => RFail
  | MPeek n k => if (pos + n <=? avail)%nat then mrun D (k (slice D pos (pos + n))) (pos + n) avail else RMore (p, pos)
  | MB q k =>
      match brun D None q pos avail with
      | RDone a pos' => mrun D (k a) pos' avail
      | RFail => RFail
      | RMore (q', pos') => RMore (MB q' k, pos')
      end
  | MBegin n call spos s k =>
      match call (section_view D pos n) s (avail - pos)%nat with
      | RDone y q => if (q =? n)%nat then mrun D (k y) (pos + n) avail else RFail
      | RFail => RFail
      | RMore s' => RMore (MIn pos n call spos s' k, pos + spos s')%nat
      end
  | MIn start n call spos s k =>
      match call (section_view D start n) s (avail - start)%nat with
      | RDone y q => if (q =? n)%nat then mrun D (k y) (start + n) avail else RFail
      | RFail => RFail
      | RMore s' => RMore (MIn start n call spos s' k, start + spos s')%nat
      end
  end.

(** What is required of a body. [ahead]: bytes it may leave unread when it asks for more;
    [P]: what holds of its results. *)
Record body_laws {S Y} (ahead n : nat) (call : list Z -> S -> nat -> res S Y) (spos : S -> nat)
    (V : list Z) (I : S -> nat -> Prop) (P : Y -> Prop) : Prop := {
  bl_stable : forall N, (n <= N <= length V)%nat -> stable (call V) I N;
  bl_pos : forall s a b x q, I s a -> (a <= b <= length V)%nat -> call V s b = RDone x q -> (spos s <= q <= b)%nat;
  bl_more : forall s a b s', I s a -> (a <= b <= length V)%nat -> call V s b = RMore s' ->
              I s' b /\ (spos s <= spos s' <= b)%nat /\ (b < spos s' + ahead)%nat;
  bl_out : forall s a b x q, I s a -> (a <= b <= length V)%nat -> call V s b = RDone x q -> P x;
  bl_steady : steady (call V) I (length V) }.

(** Every body of a program satisfies the laws. *)
Fixpoint mgood {X} (ahead : nat) (D : list Z) (p : mprog X) (a : nat) : Prop :=
  match p with
  | MRet _ => True
  | MFail => True
  | MPeek n k => (n <= ahead)%nat /\ forall l, mgood ahead D (k l) a
  | MB q k => exists P, ball0 P q /\ forall x, P x -> mgood ahead D (k x) a
  | @MBegin _ _ _ n call spos s k =>
      exists P, (forall start, exists I, body_laws ahead n call spos (section_view D start n) I P /\ I s 0%nat) /\ forall y, P y -> mgood ahead D (k y) a
  | @MIn _ _ _ start n call spos s k =>
      (start <= a)%nat /\ exists P, (exists I, body_laws ahead n call spos (section_view D start n) I P /\ exists a0, I s a0 /\ (a0 <= a - start)%nat) /\ forall y, P y -> mgood ahead D (k y) a
  end.

Lemma mgood_mono {X} ahead D : forall (p : mprog X) a b, (a <= b)%nat -> mgood ahead D p a -> mgood ahead D p b.
Proof.
  induction p as [x| |n k IH|A q k IH|S Y n call spos s k IH|S Y start n call spos s k IH]; intros a b Hab H; cbn [mgood] in *; auto.
  - destruct H as [H1 H2]. split; [exact H1|]. intros l. eapply IH; eauto.
  - destruct H as (P & H1 & H2). exists P. split; [exact H1|]. intros x Hx. eapply IH; eauto.
  - destruct H as (P & H1 & H2). exists P. split; [exact H1|]. intros y Hy. eapply IH; eauto.
  - destruct H as (H1 & P & (I & L & a0 & H2 & H3) & H4). split; [lia|]. exists P. split.
    + exists I. split; [exact L|]. exists a0. split; [exact H2|lia].
    + intros y Hy. eapply IH; eauto.
Qed.

Lemma section_view_length D start n : (length D - start + n)%nat = length (section_view D start n).
Proof. unfold section_view. rewrite app_length, skipn_length, repeat_length. reflexivity. Qed.

(** A byte parser that asks for more leaves at most 8 bytes unread. *)
Lemma decode_base128_need_short : forall fd i acc l, decode_base128_loop fd i acc l = BNeed -> (length l < fd)%nat.
Proof.
  induction fd as [|fd IH]; intros i acc l E; cbn [decode_base128_loop] in E; [discriminate|].
  destruct l as [|y l]; [cbn; lia|]. destruct (Z.land y 128 =? 0); [discriminate|]. apply IH in E. cbn [length]. lia.
Qed.

Lemma brun_ahead {A} D e avail : bytes D -> (avail <= length D)%nat -> forall (p : bprog A) pos, (pos <= avail)%nat ->
  match brun D e p pos avail with RMore s => (avail < snd s + 9)%nat | _ => True end.
Proof.
  intros Hb Ha. induction p as [a| |k IH|k IH|acc n k IH|k IH]; intros pos Hp; cbn [brun]; auto.
  - destruct (Nat.ltb_spec pos avail); [apply IH; lia|]. cbn. lia.
  - destruct (decode_base128 (slice D pos avail)) as [v rest| |] eqn:E; auto.
    + destruct (decode_slice_ok D pos avail v rest Hb ltac:(lia) E) as (_ & H & _). apply IH. lia.
    + apply decode_base128_need_short in E. rewrite slice_length in E by lia.
      destruct e as [e|]; [destruct (_ <=? _)%nat; auto|]; cbn; lia.
  - cbv zeta. set (piece := Z.to_nat (Z.min n (Z.of_nat (avail - pos)))).
    destruct (Z.leb_spec (n - Z.of_nat piece) 0); [apply IH; lia|]. cbn. lia.
  - apply IH. exact Hp.
Qed.

(** A suspended body is at the position of the program. *)
Definition mat {X} (p : mprog X) (pos : nat) : Prop :=
  match p with MIn start n call spos s k => pos = (start + spos s)%nat | _ => True end.

(** No program starts inside a section body. *)
Fixpoint moutside {X} (p : mprog X) : Prop :=
  match p with
  | MRet _ | MFail => True
  | MPeek _ k => forall l, moutside (k l)
  | MB _ k => forall x, moutside (k x)
  | MBegin _ _ _ _ k => forall y, moutside (k y)
  | MIn _ _ _ _ _ _ => False
  end.
(** ... and continues outside of one. *)
Definition mnext {X} (p : mprog X) : Prop :=
  match p with
  | MIn _ _ _ _ _ k => forall y, moutside (k y)
  | p => moutside p
  end.
Lemma moutside_next {X} (p : mprog X) : moutside p -> mnext p.
Proof. destruct p; cbn; auto. contradiction. Qed.
Lemma moutside_mat {X} (p : mprog X) pos : moutside p -> mat p pos.
Proof. destruct p; cbn; auto. contradiction. Qed.

(** Positions grow, nothing visible is left out, and at most [ahead] bytes stay unread. *)
Lemma mrun_pos {X} ahead D avail : bytes D -> (avail <= length D)%nat -> (9 <= ahead)%nat -> forall (p : mprog X) pos a,
  mgood ahead D p a -> mat p pos -> mnext p -> (pos <= avail)%nat -> (a <= avail)%nat ->
  match mrun D p pos avail with
  | RDone _ q => (pos <= q <= avail)%nat
  | RFail => True
  | RMore (p', pos') => (pos <= pos' <= avail)%nat /\ (avail < pos' + ahead)%nat /\ mgood ahead D p' avail /\ mat p' pos' /\ mnext p'
  end.
Proof.
  intros Hb Ha Hah. induction p as [x| |n k IH|A q k IH|S Y n call spos s k IH|S Y start n call spos s k IH]; intros pos a Hg Hm Hx Hp Haa; cbn [mrun].
  - lia.
  - exact I.
  - cbn [mgood mnext moutside] in Hg, Hx. destruct Hg as [Hg1 Hg2]. destruct (Nat.leb_spec (pos + n) avail).
    + pose proof (IH (slice D pos (pos + n)) (pos + n)%nat a (Hg2 _) (moutside_mat _ _ (Hx _)) (moutside_next _ (Hx _)) ltac:(lia) Haa) as R.
      destruct (mrun D (k (slice D pos (pos + n))) (pos + n) avail) as [x q| |[p' pos']]; auto; [lia|]. destruct R as (R1 & R2). split; [lia|exact R2].
    + split; [lia|]. split; [lia|]. split; [|split; [exact I|exact Hx]]. cbn [mgood]. split; [exact Hg1|]. intros l. apply (mgood_mono ahead D (k l) a); [lia|apply Hg2].
  - cbn [mgood mnext moutside] in Hg, Hx. destruct Hg as (Q0 & Hg0 & Hg). pose proof (brun_ball0 Q0 D None avail Hb Ha q pos Hp Hg0) as HQ0. pose proof (brun_pos D None avail Hb Ha q pos Hp) as P. pose proof (brun_ahead D None avail Hb Ha q pos Hp) as Q.
    destruct (brun D None q pos avail) as [x pos'| |[q' pos']]; auto.
    + pose proof (IH x pos' a (Hg _ HQ0) (moutside_mat _ _ (Hx _)) (moutside_next _ (Hx _)) ltac:(lia) Haa) as R.
      destruct (mrun D (k x) pos' avail) as [z t| |[p' pos'']]; auto; [lia|]. destruct R as (R1 & R2). split; [lia|exact R2].
    + cbn [snd] in *. split; [lia|]. split; [lia|]. split; [|split; [exact I|exact Hx]]. cbn [mgood]. exists Q0. split; [exact HQ0|]. intros x Hx0. apply (mgood_mono ahead D (k x) a); [lia|apply Hg; exact Hx0].
  - cbn [mgood mnext moutside] in Hg, Hx. destruct Hg as (P0 & Hg1 & Hg2). destruct (Hg1 pos) as (I & L & I0). pose proof (section_view_length D pos n) as SL.
    destruct (call (section_view D pos n) s (avail - pos)%nat) as [y q| |s'] eqn:E; auto.
    + pose proof (bl_pos _ _ _ _ _ _ _ L s 0%nat (avail - pos)%nat y q I0 ltac:(lia) E). destruct (Nat.eqb_spec q n); auto.
      pose proof (IH y (pos + n)%nat a (Hg2 _ (bl_out _ _ _ _ _ _ _ L s 0%nat (avail - pos)%nat y q I0 ltac:(lia) E)) (moutside_mat _ _ (Hx _)) (moutside_next _ (Hx _)) ltac:(lia) Haa) as R.
      destruct (mrun D (k y) (pos + n) avail) as [z t| |[p' pos'']]; auto; [lia|]. destruct R as (R1 & R2). split; [lia|exact R2].
    + destruct (bl_more _ _ _ _ _ _ _ L s 0%nat (avail - pos)%nat s' I0 ltac:(lia) E) as (M1 & M2 & M3).
      split; [lia|]. split; [lia|]. split; [|split; [reflexivity|exact Hx]]. cbn [mgood]. split; [lia|]. exists P0. split.
      * exists I. split; [exact L|]. exists (avail - pos)%nat. split; [exact M1|lia].
      * intros y Hy. apply (mgood_mono ahead D (k y) a); [lia|apply Hg2; exact Hy].
  - cbn [mgood mnext mat] in Hg, Hx, Hm. destruct Hg as (Hg1 & P0 & (I & L & a0 & I0 & I1) & Hg2). pose proof (section_view_length D start n) as SL.
    destruct (call (section_view D start n) s (avail - start)%nat) as [y q| |s'] eqn:E; auto.
    + pose proof (bl_pos _ _ _ _ _ _ _ L s a0 (avail - start)%nat y q I0 ltac:(lia) E). destruct (Nat.eqb_spec q n); auto.
      pose proof (IH y (start + n)%nat a (Hg2 _ (bl_out _ _ _ _ _ _ _ L s a0 (avail - start)%nat y q I0 ltac:(lia) E)) (moutside_mat _ _ (Hx _)) (moutside_next _ (Hx _)) ltac:(lia) Haa) as R.
      destruct (mrun D (k y) (start + n) avail) as [z t| |[p' pos'']]; auto; [lia|]. destruct R as (R1 & R2). split; [lia|exact R2].
    + destruct (bl_more _ _ _ _ _ _ _ L s a0 (avail - start)%nat s' I0 ltac:(lia) E) as (M1 & M2 & M3).
      split; [lia|]. split; [lia|]. split; [|split; [reflexivity|exact Hx]]. cbn [mgood]. split; [lia|]. exists P0. split.
      * exists I. split; [exact L|]. exists (avail - start)%nat. split; [exact M1|lia].
      * intros y Hy. apply (mgood_mono ahead D (k y) a); [lia|apply Hg2; exact Hy].
Qed.

(** A call with part of the input agrees with the call that sees all of it. *)
Lemma mrun_stable {X} ahead D b N : bytes D -> (b <= N)%nat -> (N <= length D)%nat -> (9 <= ahead)%nat -> forall (p : mprog X) pos a,
  mgood ahead D p a -> (pos <= b)%nat -> (a <= b)%nat ->
  match mrun D p pos b with
  | RDone x q => mrun D p pos N = RDone x q
  | RFail => forall x q, mrun D p pos N <> RDone x q
  | RMore (p', pos') => forall x q, mrun D p' pos' N = RDone x q <-> mrun D p pos N = RDone x q
  end.
Proof.
  intros Hb HbN HN Hah. induction p as [x| |n k IH|A q k IH|S Y n call spos s k IH|S Y start n call spos s k IH]; intros pos a Hg Hp Haa; cbn [mrun].
  - reflexivity.
  - intros; discriminate.
  - cbn [mgood] in Hg. destruct Hg as [Hg1 Hg2]. destruct (Nat.leb_spec (pos + n) b).
    + destruct (Nat.leb_spec (pos + n) N); [|lia]. apply (IH _ _ a); auto.
    + intros x q. reflexivity.
  - cbn [mgood] in Hg. destruct Hg as (Q0 & Hg0 & Hg). pose proof (brun_ball0 Q0 D None b Hb ltac:(lia) q pos Hp Hg0) as HQ0. pose proof (brun_pos D None b Hb ltac:(lia) q pos Hp) as P. pose proof (brun_stable D None b N Hb HbN HN q pos Hp) as S.
    destruct (brun D None q pos b) as [x pos'| |[q' pos']].
    + rewrite S. apply (IH x pos' a); auto. lia.
    + destruct (brun D None q pos N) as [x' pos'| |[q' pos']] eqn:E2; try (intros; discriminate).
      exfalso. exact (S x' pos' Logic.I eq_refl).
    + intros x t. cbn [mrun]. rewrite S. reflexivity.
  - cbn [mgood] in Hg. destruct Hg as (P0 & Hg1 & Hg2). destruct (Hg1 pos) as (I & L & I0). pose proof (section_view_length D pos n) as SL.
    set (V := section_view D pos n) in *.
    destruct (Nat.le_gt_cases n (N - pos)) as [Hn|Hn].
    + pose proof (bl_stable _ _ _ _ _ _ _ L (N - pos)%nat ltac:(lia) s 0%nat I0 (b - pos)%nat ltac:(lia)) as S0.
      destruct (call V s (b - pos)%nat) as [y q| |s'] eqn:E.
      * pose proof (bl_pos _ _ _ _ _ _ _ L s 0%nat (b - pos)%nat y q I0 ltac:(lia) E).
        rewrite S0. destruct (Nat.eqb_spec q n); [|intros; discriminate]. apply (IH y _ a); auto; [|lia]. apply Hg2. exact (bl_out _ _ _ _ _ _ _ L s 0%nat (b - pos)%nat y q I0 ltac:(lia) E).
      * destruct (call V s (N - pos)%nat) as [y q| |s'] eqn:E2; try (intros; discriminate). exfalso. exact (S0 y q eq_refl).
      * destruct S0 as [S1 S2]. intros x t. cbn [mrun]. fold V.
        destruct (call V s (N - pos)%nat) as [y q| |s''] eqn:E2.
        -- rewrite (proj2 (S2 y q) eq_refl). reflexivity.
        -- destruct (call V s' (N - pos)%nat) as [y q| |s''] eqn:E3; [|tauto|split; discriminate].
           pose proof (proj1 (S2 y q) eq_refl). discriminate.
        -- destruct (call V s' (N - pos)%nat) as [y q| |s3] eqn:E3; [|split; discriminate|split; discriminate].
           pose proof (proj1 (S2 y q) eq_refl). discriminate.
    + assert (NoN : forall x t, mrun D (MBegin n call spos s k) pos N <> RDone x t).
      { intros x t. cbn [mrun]. fold V. destruct (call V s (N - pos)%nat) as [y q| |s'] eqn:E; try discriminate.
        pose proof (bl_pos _ _ _ _ _ _ _ L s 0%nat (N - pos)%nat y q I0 ltac:(lia) E). destruct (Nat.eqb_spec q n); [lia|discriminate]. }
      cbn [mrun] in NoN. fold V in NoN.
      destruct (call V s (b - pos)%nat) as [y q| |s'] eqn:E.
      * pose proof (bl_pos _ _ _ _ _ _ _ L s 0%nat (b - pos)%nat y q I0 ltac:(lia) E). destruct (Nat.eqb_spec q n); [lia|exact NoN].
      * exact NoN.
      * destruct (bl_more _ _ _ _ _ _ _ L s 0%nat (b - pos)%nat s' I0 ltac:(lia) E) as (M1 & _ & _).
        intros x t. split; [|intros C; destruct (NoN x t C)]. cbn [mrun]. fold V.
        destruct (call V s' (N - pos)%nat) as [y q| |s''] eqn:E2; try discriminate.
        pose proof (bl_pos _ _ _ _ _ _ _ L s' (b - pos)%nat (N - pos)%nat y q M1 ltac:(lia) E2). destruct (Nat.eqb_spec q n); [lia|discriminate].
  - cbn [mgood] in Hg. destruct Hg as (Hg1 & P0 & (I & L & a0 & I0 & I1) & Hg2). pose proof (section_view_length D start n) as SL.
    set (V := section_view D start n) in *.
    destruct (Nat.le_gt_cases n (N - start)) as [Hn|Hn].
    + pose proof (bl_stable _ _ _ _ _ _ _ L (N - start)%nat ltac:(lia) s a0 I0 (b - start)%nat ltac:(lia)) as S0.
      destruct (call V s (b - start)%nat) as [y q| |s'] eqn:E.
      * pose proof (bl_pos _ _ _ _ _ _ _ L s a0 (b - start)%nat y q I0 ltac:(lia) E).
        rewrite S0. destruct (Nat.eqb_spec q n); [|intros; discriminate]. apply (IH y _ a); auto; [|lia]. apply Hg2. exact (bl_out _ _ _ _ _ _ _ L s a0 (b - start)%nat y q I0 ltac:(lia) E).
      * destruct (call V s (N - start)%nat) as [y q| |s'] eqn:E2; try (intros; discriminate). exfalso. exact (S0 y q eq_refl).
      * destruct S0 as [S1 S2]. intros x t. cbn [mrun]. fold V.
        destruct (call V s (N - start)%nat) as [y q| |s''] eqn:E2.
        -- rewrite (proj2 (S2 y q) eq_refl). reflexivity.
        -- destruct (call V s' (N - start)%nat) as [y q| |s''] eqn:E3; [|tauto|split; discriminate].
           pose proof (proj1 (S2 y q) eq_refl). discriminate.
        -- destruct (call V s' (N - start)%nat) as [y q| |s3] eqn:E3; [|split; discriminate|split; discriminate].
           pose proof (proj1 (S2 y q) eq_refl). discriminate.
    + assert (NoN : forall x t, mrun D (MIn start n call spos s k) pos N <> RDone x t).
      { intros x t. cbn [mrun]. fold V. destruct (call V s (N - start)%nat) as [y q| |s'] eqn:E; try discriminate.
        pose proof (bl_pos _ _ _ _ _ _ _ L s a0 (N - start)%nat y q I0 ltac:(lia) E). destruct (Nat.eqb_spec q n); [lia|discriminate]. }
      cbn [mrun] in NoN. fold V in NoN.
      destruct (call V s (b - start)%nat) as [y q| |s'] eqn:E.
      * pose proof (bl_pos _ _ _ _ _ _ _ L s a0 (b - start)%nat y q I0 ltac:(lia) E). destruct (Nat.eqb_spec q n); [lia|exact NoN].
      * exact NoN.
      * destruct (bl_more _ _ _ _ _ _ _ L s a0 (b - start)%nat s' I0 ltac:(lia) E) as (M1 & _ & _).
        intros x t. split; [|intros C; destruct (NoN x t C)]. cbn [mrun]. fold V.
        destruct (call V s' (N - start)%nat) as [y q| |s''] eqn:E2; try discriminate.
        pose proof (bl_pos _ _ _ _ _ _ _ L s' (b - start)%nat (N - start)%nat y q M1 ltac:(lia) E2). destruct (Nat.eqb_spec q n); [lia|discriminate].
Qed.

(** ... and whatever it reports, that the input is not valid or that it is not complete, is
    what every other way of handing over the same bytes leads to. *)
Lemma mrun_steady {X} ahead D b N : bytes D -> (b <= N)%nat -> (N <= length D)%nat -> (9 <= ahead)%nat -> forall (p : mprog X) pos a,
  mgood ahead D p a -> (pos <= b)%nat -> (a <= b)%nat ->
  match mrun D p pos b with
  | RDone x q => mrun D p pos N = RDone x q
  | RFail => mrun D p pos N = RFail
  | RMore (p', pos') => verd (mrun D p' pos' N) = verd (mrun D p pos N)
  end.
Proof.
  intros Hb HbN HN Hah. induction p as [x| |n k IH|A q k IH|S Y n call spos s k IH|S Y start n call spos s k IH]; intros pos a Hg Hp Haa; cbn [mrun].
  - reflexivity.
  - reflexivity.
  - cbn [mgood] in Hg. destruct Hg as [Hg1 Hg2]. destruct (Nat.leb_spec (pos + n) b); [|reflexivity].
    destruct (Nat.leb_spec (pos + n) N); [|lia]. apply (IH _ _ a); auto.
  - cbn [mgood] in Hg. destruct Hg as (Q0 & Hg0 & Hg). pose proof (brun_ball0 Q0 D None b Hb ltac:(lia) q pos Hp Hg0) as HQ0.
    pose proof (brun_pos D None b Hb ltac:(lia) q pos Hp) as P. pose proof (brun_steady D b N Hb HbN HN q pos Hp) as S.
    destruct (brun D None q pos b) as [x pos'| |[q' pos']].
    + rewrite S. apply (IH x pos' a); auto. lia.
    + rewrite S. reflexivity.
    + cbn [mrun]. rewrite S. reflexivity.
  - cbn [mgood] in Hg. destruct Hg as (P0 & Hg1 & Hg2). destruct (Hg1 pos) as (I & L & I0). pose proof (section_view_length D pos n) as SL.
    set (V := section_view D pos n) in *.
    pose proof (bl_steady _ _ _ _ _ _ _ L s 0%nat I0 (b - pos)%nat (N - pos)%nat ltac:(lia) ltac:(lia)) as S0.
    destruct (call V s (b - pos)%nat) as [y q| |s'] eqn:E.
    + pose proof (bl_pos _ _ _ _ _ _ _ L s 0%nat (b - pos)%nat y q I0 ltac:(lia) E).
      rewrite S0. destruct (Nat.eqb_spec q n); [|reflexivity]. apply (IH y _ a); auto; [|lia]. apply Hg2. exact (bl_out _ _ _ _ _ _ _ L s 0%nat (b - pos)%nat y q I0 ltac:(lia) E).
    + rewrite S0. reflexivity.
    + destruct S0 as [S1 S2]. cbn [mrun]. fold V.
      destruct (call V s' (N - pos)%nat) as [y q| |s2], (call V s (N - pos)%nat) as [y2 q2| |s3]; cbn [verd] in S2; try discriminate; try reflexivity.
      injection S2 as -> ->. reflexivity.
  - cbn [mgood] in Hg. destruct Hg as (Hg1 & P0 & (I & L & a0 & I0 & I1) & Hg2). pose proof (section_view_length D start n) as SL.
    set (V := section_view D start n) in *.
    pose proof (bl_steady _ _ _ _ _ _ _ L s a0 I0 (b - start)%nat (N - start)%nat ltac:(lia) ltac:(lia)) as S0.
    destruct (call V s (b - start)%nat) as [y q| |s'] eqn:E.
    + pose proof (bl_pos _ _ _ _ _ _ _ L s a0 (b - start)%nat y q I0 ltac:(lia) E).
      rewrite S0. destruct (Nat.eqb_spec q n); [|reflexivity]. apply (IH y _ a); auto; [|lia]. apply Hg2. exact (bl_out _ _ _ _ _ _ _ L s a0 (b - start)%nat y q I0 ltac:(lia) E).
    + rewrite S0. reflexivity.
    + destruct S0 as [S1 S2]. cbn [mrun]. fold V.
      destruct (call V s' (N - start)%nat) as [y q| |s2], (call V s (N - start)%nat) as [y2 q2| |s3]; cbn [verd] in S2; try discriminate; try reflexivity.
      injection S2 as -> ->. reflexivity.
Qed.
