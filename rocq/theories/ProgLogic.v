(** Reasoning about all outcomes of a bit-section program, and about how many
    bits it can use. *)
From Verif Require Import Base BitModel BitProofs.

(** Every value [p] can return, whatever bits it reads, satisfies [P]. *)
Fixpoint pall {A} (P : A -> Prop) (p : prog A) : Prop :=
  match p with
  | Ret a => P a
  | Fail => True
  | Take n f k => forall v, 0 <= v < 2 ^ Z.of_nat n -> pall P (k v)
  | Need n q => pall P q
  | Chk q => pall P q
  end.

(** The same, and [p] looks at no more than [c] bits. *)
Fixpoint pub {A} (c : nat) (P : A -> Prop) (p : prog A) : Prop :=
  match p with
  | Ret a => P a
  | Fail => True
  | Take n f k => (n <= c)%nat /\ (n <= 24)%nat /\
                  forall v, 0 <= v < 2 ^ Z.of_nat n -> (f v <= n)%nat /\ pub (c - f v) P (k v)
  | Need n q => pub c P q
  | Chk q => pub c P q
  end.

Lemma pall_mono {A} (P Q : A -> Prop) p : (forall a, P a -> Q a) -> pall P p -> pall Q p.
Proof. intros H. induction p as [a| |n f k IH|n p IH|p IH]; cbn [pall]; intros Hp; auto. Qed.

Lemma pall_bind {A B} (P : A -> Prop) (Q : B -> Prop) p g :
  pall P p -> (forall a, P a -> pall Q (g a)) -> pall Q (bind p g).
Proof. intros Hp Hg. induction p as [a| |n f k IH|n p IH|p IH]; cbn [pall bind] in *; auto. Qed.

Lemma arun_pall {A} (P : A -> Prop) strict p : forall l a r, pall P p -> arun strict p l = Some (a, r) -> P a.
Proof.
  induction p as [a| |n f k IH|n p IH|p IH]; cbn [pall arun]; intros l x r Hp E.
  - injection E as <- <-. exact Hp.
  - discriminate.
  - destruct (_ <=? _)%nat; [|discriminate]. eapply IH; [apply Hp, peek_range|exact E].
  - destruct (strict && _); [discriminate|]. eapply IH; eassumption.
  - eapply IH; eassumption.
Qed.

Lemma pub_mono {A} (P Q : A -> Prop) p : forall c c', (c <= c')%nat -> (forall a, P a -> Q a) -> pub c P p -> pub c' Q p.
Proof.
  induction p as [a| |n f k IH|n p IH|p IH]; intros c c' Hc H Hp; cbn [pub] in *; auto.
  - destruct Hp as (H1 & H2 & H3). repeat split; try lia; destruct (H3 v H0) as [H4 H5]; [exact H4|].
    eapply IH; [|exact H|exact H5]. lia.
  - eapply IH; eassumption.
  - eapply IH; eassumption.
Qed.

Lemma pub_pall {A} (P : A -> Prop) p : forall c, pub c P p -> pall P p.
Proof.
  induction p as [a| |n f k IH|n p IH|p IH]; intros c Hp; cbn [pub pall] in *; auto.
  - intros v Hv. destruct Hp as (H1 & H2 & H3). destruct (H3 v Hv) as [H4 H5]. eapply IH; exact H5.
  - eapply IH; eassumption.
  - eapply IH; eassumption.
Qed.

Lemma pub_bind {A B} (P : A -> Prop) (Q : B -> Prop) p g d : forall c,
  pub c P p -> (forall a, P a -> pub d Q (g a)) -> pub (c + d) Q (bind p g).
Proof.
  induction p as [a| |n f k IH|n p IH|p IH]; intros c Hp Hg; cbn [pub bind] in *; auto.
  - eapply pub_mono; [|intros b Hb; exact Hb|apply Hg, Hp]. lia.
  - destruct Hp as (H1 & H2 & H3). split; [lia|]. split; [lia|]. intros v Hv. destruct (H3 v Hv) as [H4 H5].
    split; [exact H4|]. eapply pub_mono; [|intros b Hb; exact Hb|apply IH; [exact H5|exact Hg]]. lia.
Qed.

Lemma bok_bind_pub {A B} (P : A -> Prop) p (g : A -> prog B) b : forall c,
  pub c P p -> (forall a, P a -> bok b (g a)) -> bok (c + b) (bind p g).
Proof.
  induction p as [a| |n f k IH|n p IH|p IH]; intros c Hp Hg; cbn [pub bind bok] in *; auto.
  - eapply bok_mono; [|apply Hg, Hp]. lia.
  - destruct Hp as (H1 & H2 & H3). split; [lia|]. split; [lia|]. intros v Hv. destruct (H3 v Hv) as [H4 H5].
    split; [exact H4|]. eapply bok_mono; [|apply IH; [exact H5|exact Hg]]. lia.
  - eapply bok_mono; [|apply IH; [exact Hp|exact Hg]]. lia.
Qed.

Lemma pub_bok {A} (P : A -> Prop) p c : pub c P p -> bok c p.
Proof.
  revert c. induction p as [a| |n f k IH|n p IH|p IH]; intros c Hp; cbn [pub bok] in *; auto.
  - destruct Hp as (H1 & H2 & H3). split; [lia|]. split; [lia|]. intros v Hv. destruct (H3 v Hv) as [H4 H5].
    split; [exact H4|]. apply IH, H5.
  - eapply bok_mono; [|apply IH, Hp]. lia.
Qed.

(** [bind] where the outcome predicate of the first part is needed. *)
Lemma bok_bind_all {A B} (P : A -> Prop) p (g : A -> prog B) : forall b,
  bok b p -> pall P p -> (forall a, P a -> bok 0 (g a)) -> bok b (bind p g).
Proof.
  induction p as [a| |n f k IH|n p IH|p IH]; intros b Hb Hp Hg; cbn [pall bind bok] in *; auto.
  - eapply bok_mono; [|apply Hg, Hp]. lia.
  - destruct Hb as (H1 & H2 & H3). split; [lia|]. split; [lia|]. intros v Hv. destruct (H3 v Hv) as [H4 H5].
    split; [exact H4|]. apply IH; auto.
Qed.

Lemma pub_Read {A} c n (P : A -> Prop) (k : Z -> prog A) : (n <= 24)%nat ->
  (forall v, 0 <= v < 2 ^ Z.of_nat n -> pub c P (k v)) -> pub (n + c) P (Read n k).
Proof.
  intros Hn H. unfold Read; cbn [pub]. split; [lia|]. split; [exact Hn|]. intros v Hv. split; [lia|].
  replace (n + c - n)%nat with c by lia. apply H, Hv.
Qed.

Lemma pall_Read {A} n (P : A -> Prop) (k : Z -> prog A) :
  (forall v, 0 <= v < 2 ^ Z.of_nat n -> pall P (k v)) -> pall P (Read n k).
Proof. intros H. exact H. Qed.

(** Whatever a section decoder accepts, in any pieces, satisfies a predicate that
    holds for all outcomes of its program. *)
Lemma section_pall {A} (P : A -> Prop) lenient sec (p : prog A) avails a u :
  bytes sec -> bok 0 p -> pall P p -> nondecreasing 0 avails ->
  Forall (fun x => (x <= length sec)%nat) avails ->
  section_calls lenient sec p br_init 0 avails = SDone a u -> P a.
Proof.
  intros Hb B Hp Hm Hle E.
  pose proof (section_prefix lenient sec p avails Hb B Hm Hle) as X. rewrite E in X.
  unfold asection in X. destruct (arun _ _ _) as [[x rest]|] eqn:Ea; [|discriminate].
  destruct (forallb _ _); [|discriminate]. injection X as -> _.
  eapply arun_pall; [|exact Ea]. exact Hp.
Qed.
