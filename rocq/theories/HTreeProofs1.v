(** CreateHuffmanTree: the two queues, the resulting tree and its height. *)
From Coq Require Import Permutation.
From Verif Require Import Base JBitModel JWriteProofs JReadProofs JHuffModel JHuffProofs HTreeModel.

(** * Trees *)

Inductive ht := HL (c s : Z) | HN (l r : ht).
Fixpoint wt (t : ht) : Z := match t with HL c _ => c | HN l r => wt l + wt r end.
Fixpoint hgt (t : ht) : nat := match t with HL _ _ => O | HN l r => S (Nat.max (hgt l) (hgt r)) end.
Fixpoint lvs (t : ht) : list (Z * Z) := match t with HL c s => [(c, s)] | HN l r => lvs l ++ lvs r end.
(** Symbols with their depths, from left to right. *)
Fixpoint levels (d : Z) (t : ht) : list (Z * Z) :=
  match t with HL _ s => [(s, d)] | HN l r => levels (d + 1) l ++ levels (d + 1) r end.

(** The smallest weight of a tree of height [h] with leaves of weight at least 1. *)
Fixpoint fa (h : nat) : Z := match h with O => 1 | S O => 2 | S (S k as m) => fa m + fa k end.
Lemma fa_SS k : fa (S (S k)) = fa (S k) + fa k.
Proof. reflexivity. Qed.
Lemma fa_pos h : 0 < fa h /\ 0 < fa (S h).
Proof. induction h as [|h [A B]]; [cbn; lia|]. rewrite fa_SS. lia. Qed.
Lemma fa_mono a b : (a <= b)%nat -> fa a <= fa b.
Proof.
  intros H. induction H as [|b H IH]; [lia|]. destruct b as [|b]; [cbn in *; pose proof (fa_pos a); replace a with 0%nat by lia; cbn; lia|].
  rewrite fa_SS. pose proof (fa_pos b). lia.
Qed.

(** Every subtree is heavy enough for its height. *)
Fixpoint hok (m : Z) (t : ht) : Prop :=
  match t with HL c _ => m <= c | HN l r => fa (hgt t) * m <= wt t /\ hok m l /\ hok m r end.
Lemma hok_wt m t : hok m t -> fa (hgt t) * m <= wt t.
Proof. destruct t as [c s|l r]; [cbn [hok hgt wt]; change (fa 0) with 1; lia|intros [H _]; exact H]. Qed.
Lemma hok_min m t : 0 <= m -> hok m t -> m <= wt t.
Proof. intros Hm H. apply hok_wt in H. pose proof (fa_pos (hgt t)). nia. Qed.

Definition kids (p : Z) (t : ht) : Prop := match t with HL _ _ => True | HN l r => wt l <= p /\ wt r <= p end.
Lemma kids_mono p q t : p <= q -> kids p t -> kids q t.
Proof. destruct t; cbn; [auto|lia]. Qed.

(** A taller child [u], its partner at least as heavy as everything [u] was made of. *)
Lemma tall_child m p u x : 0 <= m -> hok m u -> hok m x -> kids p u -> p <= wt x -> fa (S (hgt u)) * m <= wt u + wt x.
Proof.
  intros Hm Hu Hx K Hp. destruct u as [c s|l r].
  - cbn [hgt hok wt] in *. change (fa 1) with 2. pose proof (hok_min m x Hm Hx). lia.
  - pose proof (hok_wt _ _ Hu) as W. cbn [hok] in Hu. destruct Hu as (_ & Hl & Hr). cbn [kids] in K. destruct K as [Kl Kr].
    change (hgt (HN l r)) with (S (Nat.max (hgt l) (hgt r))) in *. rewrite fa_SS, Z.mul_add_distr_r.
    assert (fa (Nat.max (hgt l) (hgt r)) * m <= wt x); [|lia].
    destruct (Nat.max_spec (hgt l) (hgt r)) as [[_ ->]|[_ ->]]; [pose proof (hok_wt _ _ Hr)|pose proof (hok_wt _ _ Hl)]; lia.
Qed.

Lemma hok_node m p a b : 0 <= m -> hok m a -> hok m b -> kids p a -> kids p b -> p <= wt a -> p <= wt b -> hok m (HN a b).
Proof.
  intros Hm Ha Hb Ka Kb Pa Pb. cbn [hok hgt wt]. split; [|split; assumption].
  destruct (Nat.max_spec (hgt a) (hgt b)) as [[_ ->]|[_ ->]].
  - pose proof (tall_child m p b a Hm Hb Ha Kb Pa). lia.
  - exact (tall_child m p a b Hm Ha Hb Ka Pb).
Qed.

(** * The state of the two queues *)

Definition srt (l : list ht) : Prop := ascending (map wt l).
Definition tot (l : list ht) : Z := sumZ (map wt l).

Definition finv (m p : Z) (L Q : list ht) : Prop :=
  0 <= m /\ 0 <= p /\ srt L /\ srt Q /\ Forall (fun t => p <= wt t) (L ++ Q) /\ Forall (fun t => wt t <= 2 * p) Q
  /\ Forall (hok m) (L ++ Q) /\ Forall (kids p) (L ++ Q).

(** One tree taken out. *)
Definition taken (L Q : list ht) (t : ht) (L' Q' : list ht) : Prop :=
  (L = t :: L' /\ Q' = Q) \/ (L' = L /\ Q = t :: Q').

Lemma srt_tl t l : srt (t :: l) -> srt l /\ Forall (fun u => wt t <= wt u) l.
Proof. unfold srt. cbn [map ascending]. intros [A B]. split; [exact B|]. rewrite Forall_map in A. exact A. Qed.

Lemma srt_snoc l t : srt l -> Forall (fun u => wt u <= wt t) l -> srt (l ++ [t]).
Proof.
  unfold srt. induction l as [|u l IH]; intros H F; [cbn; auto|]. cbn [app map ascending] in *. destruct H as [A B].
  split; [|apply IH; [exact B|eapply Forall_inv_tail, F]].
  rewrite map_app, Forall_app. split; [exact A|]. constructor; [apply (Forall_inv F)|constructor].
Qed.

Lemma taken_perm L Q t L' Q' : taken L Q t L' Q' -> Permutation (L ++ Q) (t :: L' ++ Q').
Proof. intros [[-> ->]|[-> ->]]; [reflexivity|]. symmetry. apply Permutation_middle. Qed.

(** Both trees of one round and the new parent. *)
Lemma finv_step m p L Q a L1 Q1 b L2 Q2 : finv m p L Q ->
  taken L Q a L1 Q1 -> Forall (fun u => wt a <= wt u) (L1 ++ Q1) ->
  taken L1 Q1 b L2 Q2 -> Forall (fun u => wt b <= wt u) (L2 ++ Q2) ->
  finv m (wt b) L2 (Q2 ++ [HN a b]).
Proof.
  intros (Hm & Hp & SL & SQ & FP & F2 & FH & FK) T1 M1 T2 M2.
  assert (P1 := taken_perm _ _ _ _ _ T1). assert (P2 := taken_perm _ _ _ _ _ T2).
  assert (P : Permutation (L ++ Q) (a :: b :: L2 ++ Q2)) by (rewrite P1; constructor; exact P2).
  assert (Hab : wt a <= wt b).
  { rewrite Forall_forall in M1. apply M1. apply (Permutation_in _ (Permutation_sym P2)). left; reflexivity. }
  assert (FP' := Permutation_Forall P FP). assert (FH' := Permutation_Forall P FH). assert (FK' := Permutation_Forall P FK).
  pose proof (Forall_inv FP') as Pa. pose proof (Forall_inv (Forall_inv_tail FP')) as Pb. cbv beta in Pa, Pb.
  pose proof (Forall_inv FH') as Ha. pose proof (Forall_inv (Forall_inv_tail FH')) as Hb.
  pose proof (Forall_inv FK') as Ka. pose proof (Forall_inv (Forall_inv_tail FK')) as Kb.
  pose proof (Forall_inv_tail (Forall_inv_tail FH')) as FH2. pose proof (Forall_inv_tail (Forall_inv_tail FK')) as FK2.
  assert (HN1 : hok m (HN a b)) by (apply (hok_node m p); assumption).
  pose proof (hok_min m a Hm Ha) as Ma.
  assert (SUB : (forall u, In u Q2 -> In u Q) /\ srt Q2 /\ srt L2).
  { clear - T1 T2 SL SQ. destruct T1 as [[-> ->]|[-> ->]], T2 as [[-> ->]|[-> ->]].
    - split; [auto|]. split; [exact SQ|]. apply srt_tl in SL as [SL _]. apply srt_tl in SL as [SL _]. exact SL.
    - split; [intros; right; assumption|]. apply srt_tl in SQ as [SQ _]. apply srt_tl in SL as [SL _]. auto.
    - split; [intros; right; assumption|]. apply srt_tl in SQ as [SQ _]. apply srt_tl in SL as [SL _]. auto.
    - split; [intros; right; right; assumption|]. apply srt_tl in SQ as [SQ _]. apply srt_tl in SQ as [SQ _]. auto. }
  destruct SUB as (SUB & SQ2 & SL2).
  assert (Q2le : Forall (fun u => wt u <= 2 * p) Q2).
  { apply Forall_forall. intros u Hu. rewrite Forall_forall in F2. apply F2, SUB, Hu. }
  unfold finv. split; [exact Hm|]. split; [lia|]. split; [exact SL2|]. split; [|split; [|split; [|split]]].
  - apply srt_snoc; [exact SQ2|]. eapply Forall_impl; [|exact Q2le]. cbv beta. intros u Hu. cbn [wt]. lia.
  - rewrite app_assoc, Forall_app. split; [exact M2|]. constructor; [cbn [wt]; lia|constructor].
  - rewrite Forall_app. split; [eapply Forall_impl; [|exact Q2le]; cbv beta; intros; lia|]. constructor; [cbn [wt]; lia|constructor].
  - rewrite app_assoc, Forall_app. split; [exact FH2|]. constructor; [exact HN1|constructor].
  - rewrite app_assoc, Forall_app. split.
    + eapply Forall_impl; [|exact FK2]. intros u. apply kids_mono. lia.
    + constructor; [cbn [kids]; lia|constructor].
Qed.

(** * Trees in the pool *)

Fixpoint repr (pool : list hnode) (b idx : Z) (t : ht) : Prop :=
  0 <= idx < b /\
  match t with
  | HL c s => aget pool idx = JOk (c, (-1, s))
  | HN l r => exists li ri, aget pool idx = JOk (wt l + wt r, (li, ri)) /\ repr pool b li l /\ repr pool b ri r
  end.
Fixpoint reprs (pool : list hnode) (b idx : Z) (l : list ht) : Prop :=
  match l with [] => True | t :: r => repr pool b idx t /\ reprs pool b (idx + 1) r end.

Lemma repr_range pool b idx t : repr pool b idx t -> 0 <= idx < b.
Proof. destruct t; intros [H _]; exact H. Qed.
Lemma repr_count pool b idx t : repr pool b idx t -> exists h, aget pool idx = JOk h /\ h_count h = wt t.
Proof.
  destruct t as [c s|l r]; intros [_ H]; [exists (c, (-1, s)); split; [exact H|reflexivity]|].
  destruct H as (li & ri & E & _). eexists; split; [exact E|reflexivity].
Qed.
Lemma repr_ext pool pool' b b' t : b <= b' -> (forall k, 0 <= k < b -> aget pool' k = aget pool k) ->
  forall idx, repr pool b idx t -> repr pool' b' idx t.
Proof.
  intros Hb E. induction t as [c s|l IHl r IHr]; intros idx [R H]; (split; [lia|]).
  - rewrite E by lia. exact H.
  - destruct H as (li & ri & Eq & Hl & Hr). exists li, ri. rewrite E by lia. split; [exact Eq|]. split; [apply IHl, Hl|apply IHr, Hr].
Qed.
Lemma reprs_ext pool pool' b b' l : b <= b' -> (forall k, 0 <= k < b -> aget pool' k = aget pool k) ->
  forall idx, reprs pool b idx l -> reprs pool' b' idx l.
Proof.
  intros Hb E. induction l as [|t l IH]; intros idx H; [exact I|]. destruct H as [H1 H2]. split; [eapply repr_ext; eassumption|apply IH, H2].
Qed.
Lemma reprs_snoc pool b l t : forall idx, reprs pool b idx l -> repr pool b (idx + Z.of_nat (length l)) t -> reprs pool b idx (l ++ [t]).
Proof.
  induction l as [|u l IH]; intros idx H R; [cbn [length app reprs] in *; rewrite Z.add_0_r in R; auto|].
  cbn [length app reprs] in *. destruct H as [H1 H2]. split; [exact H1|]. apply IH; [exact H2|].
  replace (idx + 1 + Z.of_nat (length l)) with (idx + Z.of_nat (S (length l))) by lia. exact R.
Qed.

(** The pool between rounds: [n] leaves, the next parent goes to [b]. *)
Definition pstate (n : Z) (pool : list hnode) (b i j : Z) (L Q : list ht) : Prop :=
  Z.of_nat (length pool) = b + 1 /\ aget pool b = JOk sentinel /\ aget pool n = JOk sentinel
  /\ 0 <= i /\ i + Z.of_nat (length L) = n /\ n + 1 <= j /\ j + Z.of_nat (length Q) = b
  /\ reprs pool b i L /\ reprs pool b j Q.

Lemma pick_ok m p n pool b i j L Q : finv m p L Q -> pstate n pool b i j L Q ->
  Forall (fun t => wt t < 2 ^ 32 - 1) (L ++ Q) -> (1 <= length L + length Q)%nat ->
  exists x i' j' t L' Q', pick_node pool i j = JOk (x, (i', j')) /\ taken L Q t L' Q' /\ repr pool b x t
    /\ pstate n pool b i' j' L' Q' /\ Forall (fun u => wt t <= wt u) (L' ++ Q').
Proof.
  intros (Hm & Hp & SL & SQ & _) (LP & Sb & Sn & Hi & Ei & Hj & Ej & RL & RQ) FS Hlen. unfold pick_node.
  destruct L as [|tl L'].
  - destruct Q as [|tq Q']; [cbn [length] in Hlen; lia|]. cbn [length] in *. replace i with n by lia. rewrite Sn. cbn [jbind].
    destruct RQ as [Rq RQ']. destruct (repr_count _ _ _ _ Rq) as (h & Eh & Ch). rewrite Eh. cbn [jbind]. rewrite Ch.
    change (h_count sentinel) with (2 ^ 32 - 1). pose proof (Forall_inv FS) as Hs. cbv beta in Hs.
    destruct (Z.leb_spec (2 ^ 32 - 1) (wt tq)); [lia|].
    exists j, n, (j + 1), tq, [], Q'. split; [reflexivity|]. split; [right; auto|]. split; [exact Rq|]. split.
    + unfold pstate. cbn [length]. repeat (split; [first [assumption|lia|exact I]|]). exact RQ'.
    + apply srt_tl in SQ as [_ SQ]. exact SQ.
  - destruct RL as [Rl RL']. destruct (repr_count _ _ _ _ Rl) as (h & Eh & Ch). rewrite Eh. cbn [jbind]. rewrite Ch.
    destruct Q as [|tq Q'].
    + cbn [length] in Ej. replace j with b by lia. rewrite Sb. cbn [jbind]. change (h_count sentinel) with (2 ^ 32 - 1).
      pose proof (Forall_inv FS) as Hs. cbv beta in Hs. destruct (Z.leb_spec (wt tl) (2 ^ 32 - 1)); [|lia].
      exists i, (i + 1), b, tl, L', []. split; [reflexivity|]. split; [left; auto|]. split; [exact Rl|]. split.
      * unfold pstate. cbn [length] in *. repeat (split; [first [assumption|lia]|]). exact I.
      * rewrite app_nil_r. apply srt_tl in SL as [_ SL]. exact SL.
    + destruct RQ as [Rq RQ']. destruct (repr_count _ _ _ _ Rq) as (h2 & Eh2 & Ch2). rewrite Eh2. cbn [jbind]. rewrite Ch2.
      apply srt_tl in SL as SL'. apply srt_tl in SQ as SQ'. destruct SL' as [_ FL]. destruct SQ' as [_ FQ].
      destruct (Z.leb_spec (wt tl) (wt tq)) as [Hle|Hgt].
      * exists i, (i + 1), j, tl, L', (tq :: Q'). split; [reflexivity|]. split; [left; auto|]. split; [exact Rl|]. split.
        -- unfold pstate. cbn [length] in *. repeat (split; [first [assumption|lia]|]). exact RQ'.
        -- rewrite Forall_app. split; [exact FL|]. constructor; [exact Hle|]. eapply Forall_impl; [|exact FQ]. cbv beta. intros; lia.
      * exists j, i, (j + 1), tq, (tl :: L'), Q'. split; [reflexivity|]. split; [right; auto|]. split; [exact Rq|]. split.
        -- unfold pstate. cbn [length] in *. repeat (split; [first [assumption|lia]|]). split; [split; assumption|exact RQ'].
        -- cbn [app]. constructor; [lia|]. rewrite Forall_app. split; [|exact FQ]. eapply Forall_impl; [|exact FL]. cbv beta. intros; lia.
Qed.
