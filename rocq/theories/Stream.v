(** Resumable decoders: a decoder is called again and again with more and more of
    the input visible and either finishes, fails, or asks for more. *)
From Verif Require Import Base BitModel BitProofs.

(** Outcome of one call: finished with a value and a position, failed, or
    suspended in a new state. *)
Inductive res (S X : Type) : Type :=
| RDone (x : X) (q : nat)
| RFail
| RMore (s : S).
Arguments RDone {S X} x q.
Arguments RFail {S X}.
Arguments RMore {S X} s.

(** Calls with growing amounts of visible input. *)
Fixpoint calls {S X} (call : S -> nat -> res S X) (s : S) (avails : list nat) : res S X :=
  match avails with
  | [] => RMore s
  | a :: r => match call s a with RMore s' => calls call s' r | x => x end
  end.

(** A call with part of the input agrees with the call that sees all [N] bytes:
    success is the same success, failure is never turned into success, and
    suspending loses nothing.  [I s a]: state [s] may arise after [a] bytes. *)
Definition stable {S X} (call : S -> nat -> res S X) (I : S -> nat -> Prop) (N : nat) : Prop :=
  forall s a, I s a -> forall b, (a <= b <= N)%nat ->
    match call s b with
    | RDone x q => call s N = RDone x q
    | RFail => forall x q, call s N <> RDone x q
    | RMore s' => I s' b /\ forall x q, call s' N = RDone x q <-> call s N = RDone x q
    end.

Lemma calls_stable {S X} (call : S -> nat -> res S X) I N : stable call I N ->
  forall avails s a, I s a -> nondecreasing a avails -> Forall (fun x => (x <= N)%nat) avails ->
  match calls call s avails with
  | RDone x q => call s N = RDone x q
  | RFail => forall x q, call s N <> RDone x q
  | RMore s' => forall x q, call s' N = RDone x q <-> call s N = RDone x q
  end.
Proof.
  intros H. induction avails as [|b r IH]; intros s a Hi Hm Hl; cbn [calls]; [reflexivity|].
  destruct Hm as [Hab Hm]. inversion Hl as [|? ? Hb Hl']; subst.
  specialize (H s a Hi b ltac:(lia)). destruct (call s b) as [x q| |s']; [exact H|exact H|].
  destruct H as [H1 H2]. specialize (IH s' b H1 Hm Hl'). destruct (calls call s' r).
  - apply H2, IH.
  - intros y q E. apply H2 in E. exact (IH y q E).
  - intros y q. rewrite IH. apply H2.
Qed.

(** Once all the input has been visible, the pieces do not matter. *)
Lemma calls_complete {S X} (call : S -> nat -> res S X) I N : stable call I N ->
  forall avails s a, I s a -> nondecreasing a avails -> Forall (fun x => (x <= N)%nat) avails -> In N avails ->
  forall x q, calls call s avails = RDone x q <-> call s N = RDone x q.
Proof.
  intros H. induction avails as [|b r IH]; intros s a Hi Hm Hl Hin x q; [destruct Hin|]. cbn [calls].
  destruct Hm as [Hab Hm]. inversion Hl as [|? ? Hb Hl']; subst.
  pose proof (H s a Hi b ltac:(lia)) as Hb1. destruct Hin as [->|Hin].
  - destruct (call s N) as [y p| |s'] eqn:E; [reflexivity|reflexivity|].
    destruct Hb1 as [H1 H2]. pose proof (calls_stable call I N H r s' N H1 Hm Hl') as C.
    split; [|discriminate]. intros D. rewrite D in C. apply H2 in C. discriminate.
  - destruct (call s b) as [y p| |s'].
    + rewrite Hb1. reflexivity.
    + split; [discriminate|]. intros E. destruct (Hb1 _ _ E).
    + destruct Hb1 as [H1 H2]. rewrite (IH s' b H1 Hm Hl' Hin). apply H2.
Qed.

(** * Byte-level decoders *)

From Verif Require Import CodesModel CodesProofs.

(** Operations of the byte-level parsers of c/dec/brunsli_decode.cc: ReadByte,
    DecodeBase128 (1016-1032, nothing is consumed unless it completes), bytes
    copied or skipped piecewise, and comparisons with the current position. *)
Inductive bprog (A : Type) : Type :=
| BRet (a : A)
| BFail
| BByte (k : Z -> bprog A)
| BBase128 (k : Z -> bprog A)
| BBytes (acc : list Z) (n : Z) (k : list Z -> bprog A)
| BPos (k : nat -> bprog A).
Arguments BRet {A} a.
Arguments BFail {A}.
Arguments BByte {A} k.
Arguments BBase128 {A} k.
Arguments BBytes {A} acc n k.
Arguments BPos {A} k.

Fixpoint bbind {A B} (p : bprog A) (g : A -> bprog B) : bprog B :=
  match p with
  | BRet a => g a
  | BFail => BFail
  | BByte k => BByte (fun v => bbind (k v) g)
  | BBase128 k => BBase128 (fun v => bbind (k v) g)
  | BBytes acc n k => BBytes acc n (fun v => bbind (k v) g)
  | BPos k => BPos (fun v => bbind (k v) g)
  end.

Definition slice (D : list Z) (a b : nat) : list Z := firstn (b - a) (skipn a D).

(** One call: [D] is the whole input, of which the first [avail] bytes are visible;
    the state is the rest of the program and the position.  [e]: the end of the
    section for the parsers that pass NOT_ENOUGH_DATA through CheckBoundary
    (brunsli_decode.cc:1374-1381), [None] for those that do not. *)
Fixpoint brun {A} (D : list Z) (e : option nat) (p : bprog A) (pos avail : nat) : res (bprog A * nat) A :=
  match p with
  | BRet a => RDone a pos
  | BFail => RFail
  | BByte k => if (pos <? avail)%nat then brun D e (k (nth pos D 0)) (S pos) avail else RMore (p, pos)
  | BBase128 k =>
      match decode_base128 (slice D pos avail) with
      | BOk v rest => brun D e (k v) (avail - length rest) avail
      | BBad => RFail
      | BNeed =>
          match e with
          | Some e => if (e - pos <=? avail - pos)%nat then RFail else RMore (p, pos)
          | None => RMore (p, pos)
          end
      end
  | BBytes acc n k =>
      let piece := Z.to_nat (Z.min n (Z.of_nat (avail - pos))) in
      let acc' := acc ++ slice D pos (pos + piece) in
      if n - Z.of_nat piece <=? 0 then brun D e (k acc') (pos + piece) avail
      else RMore (BBytes acc' (n - Z.of_nat piece) k, (pos + piece)%nat)
  | BPos k => brun D e (k pos) pos avail
  end.

Lemma slice_length D a b : (b <= length D)%nat -> length (slice D a b) = (b - a)%nat.
Proof. intros H. unfold slice. rewrite firstn_length, skipn_length. lia. Qed.

Lemma skipn_add {A} (l : list A) : forall a b, skipn a (skipn b l) = skipn (a + b) l.
Proof.
  intros a b. revert l. induction b as [|b IH]; intros l; [rewrite Nat.add_0_r; reflexivity|].
  destruct l as [|x l]; [rewrite !skipn_nil; reflexivity|]. replace (a + S b)%nat with (S (a + b)) by lia. apply IH.
Qed.

Lemma firstn_add {A} (l : list A) : forall a b, firstn (a + b) l = firstn a l ++ firstn b (skipn a l).
Proof.
  induction l as [|x l IH]; intros a b; [rewrite skipn_nil, !firstn_nil; reflexivity|].
  destruct a as [|a]; [reflexivity|]. cbn [Nat.add firstn skipn app]. rewrite IH. reflexivity.
Qed.

Lemma slice_app D a b c : (a <= b <= c)%nat -> slice D a c = slice D a b ++ slice D b c.
Proof.
  intros H. unfold slice. replace (c - a)%nat with ((b - a) + (c - b))%nat by lia.
  rewrite firstn_add, skipn_add. replace (b - a + a)%nat with b by lia. reflexivity.
Qed.

Lemma slice_bytes D a b : bytes D -> bytes (slice D a b).
Proof.
  intros H. unfold slice, bytes in *. rewrite Forall_forall in *. intros x Hx. apply H.
  rewrite <- (firstn_skipn a D). apply in_or_app. right.
  rewrite <- (firstn_skipn (b - a) (skipn a D)). apply in_or_app. left. exact Hx.
Qed.

Lemma slice_nil D a b : (b <= a)%nat -> slice D a b = [].
Proof. intros H. unfold slice. replace (b - a)%nat with O by lia. reflexivity. Qed.

Lemma decode_base128_more l ext : decode_base128 (l ++ ext) =
  match decode_base128 l with BOk v r => BOk v (r ++ ext) | BBad => BBad | BNeed => decode_base128 (l ++ ext) end.
Proof. apply decode_base128_loop_more. Qed.

(** A complete number is decided by its own bytes. *)
Lemma decode_base128_loop_used fd : forall i acc l v rest, decode_base128_loop fd i acc l = BOk v rest ->
  exists used, l = used ++ rest /\ decode_base128_loop fd i acc used = BOk v [].
Proof.
  induction fd as [|fd IH]; intros i acc l v rest E; cbn [decode_base128_loop] in E; [discriminate|].
  destruct l as [|y l]; [discriminate|]. destruct (Z.land y 128 =? 0) eqn:Ey.
  - injection E as <- <-. exists [y]. split; [reflexivity|]. cbn [decode_base128_loop]. rewrite Ey. reflexivity.
  - destruct (IH _ _ _ _ _ E) as (used & -> & E2). exists (y :: used). split; [reflexivity|].
    cbn [decode_base128_loop]. rewrite Ey. exact E2.
Qed.

(** Position after a complete Base128 number. *)
Lemma decode_slice_ok D pos a v rest : bytes D -> (pos <= a <= length D)%nat ->
  decode_base128 (slice D pos a) = BOk v rest ->
  0 <= v < 2 ^ 63 /\ (pos + 1 <= a - length rest <= a)%nat /\ rest = slice D (a - length rest) a.
Proof.
  intros Hb Hp E. destruct (decode_base128_ok _ _ _ (slice_bytes D pos a Hb) E) as (H1 & used & H2 & H3).
  split; [exact H1|]. pose proof (slice_length D pos a ltac:(lia)) as L. rewrite H2, app_length in L.
  split; [lia|]. rewrite (slice_app D pos (a - length rest) a) in H2 by lia.
  assert (length (slice D pos (a - length rest)) = length used) by (rewrite slice_length; lia).
  symmetry. revert H2 H. generalize (slice D pos (a - length rest)). clear. induction used as [|u us IH]; intros [|x xs] E L; cbn in *; try lia; auto.
  injection E as -> E. apply (IH xs); [exact E|lia].
Qed.

(** Positions only grow and never pass the visible input. *)
Lemma brun_pos {A} D e avail : bytes D -> (avail <= length D)%nat -> forall (p : bprog A) pos, (pos <= avail)%nat ->
  match brun D e p pos avail with
  | RDone _ q => (pos <= q <= avail)%nat
  | RFail => True
  | RMore s => (pos <= snd s <= avail)%nat
  end.
Proof.
  intros Hb Ha. induction p as [a| |k IH|k IH|acc n k IH|k IH]; intros pos Hp; cbn [brun].
  - lia.
  - exact I.
  - destruct (Nat.ltb_spec pos avail); [|cbn; lia]. specialize (IH (nth pos D 0) (S pos) ltac:(lia)).
    destruct (brun D e (k (nth pos D 0)) (S pos) avail); auto; lia.
  - destruct (decode_base128 (slice D pos avail)) as [v rest| |] eqn:E; auto.
    + destruct (decode_slice_ok D pos avail v rest Hb ltac:(lia) E) as (_ & H & _).
      specialize (IH v (avail - length rest)%nat ltac:(lia)). destruct (brun D e (k v) _ avail); auto; lia.
    + destruct e as [e|]; [destruct (_ <=? _)%nat; auto|]; cbn; lia.
  - cbv zeta. set (piece := Z.to_nat (Z.min n (Z.of_nat (avail - pos)))).
    destruct (_ <=? 0); [|cbn; lia]. specialize (IH (acc ++ slice D pos (pos + piece)) (pos + piece)%nat ltac:(lia)).
    destruct (brun D e (k _) _ avail); auto; lia.
  - apply IH. exact Hp.
Qed.

Definition within (e : option nat) (q : nat) : Prop := match e with Some e => (q <= e)%nat | None => True end.

Lemma brun_stable {A} D e a b : bytes D -> (a <= b)%nat -> (b <= length D)%nat ->
  forall (p : bprog A) pos, (pos <= a)%nat ->
  match brun D e p pos a with
  | RDone x q => brun D e p pos b = RDone x q
  | RFail => forall x q, within e q -> brun D e p pos b <> RDone x q
  | RMore (p', pos') => brun D e p' pos' b = brun D e p pos b
  end.
Proof.
  intros Hb Hab Hl. induction p as [x| |k IH|k IH|acc n k IH|k IH]; intros pos Hp; cbn [brun].
  - reflexivity.
  - intros; discriminate.
  - destruct (Nat.ltb_spec pos a); [|reflexivity]. destruct (Nat.ltb_spec pos b); [|lia]. apply IH. lia.
  - rewrite (slice_app D pos a b) by lia. rewrite decode_base128_more.
    destruct (decode_base128 (slice D pos a)) as [v rest| |] eqn:E.
    + destruct (decode_slice_ok D pos a v rest Hb ltac:(lia) E) as (_ & H & _).
      rewrite app_length, slice_length by lia.
      replace (b - (length rest + (b - a)))%nat with (a - length rest)%nat by lia. apply IH. lia.
    + destruct e as [e|].
      * destruct (Nat.leb_spec (e - pos) (a - pos)) as [He|He].
        -- intros x q Hq. rewrite <- slice_app by lia.
           destruct (decode_base128 (slice D pos b)) as [v rest| |] eqn:Eb.
           ++ intros Ed. pose proof (brun_pos D (Some e) b Hb Hl (k v) (b - length rest)) as P.
              destruct (decode_slice_ok D pos b v rest Hb ltac:(lia) Eb) as (_ & H & Hr).
              specialize (P ltac:(lia)). rewrite Ed in P. cbn [within] in Hq.
              (* the number must extend past the visible part *)
              assert (X : (a < b - length rest)%nat).
              { destruct (Nat.le_gt_cases (b - length rest) a) as [C|C]; [exfalso|exact C].
                destruct (decode_base128_loop_used _ _ _ _ _ _ Eb) as (used & U1 & U2).
                assert (U3 : slice D pos (b - length rest) = used).
                { rewrite (slice_app D pos (b - length rest) b) in U1 by lia.
                  rewrite Hr in U1 at 3. apply app_inv_tail in U1. exact U1. }
                rewrite (slice_app D pos (b - length rest) a), U3, decode_base128_more in E by lia.
                unfold decode_base128 in E. rewrite U2 in E. discriminate. }
              lia.
           ++ destruct (_ <=? _)%nat; discriminate.
           ++ discriminate.
        -- cbn [brun]. rewrite (slice_app D pos a b) by lia. reflexivity.
      * cbn [brun]. rewrite (slice_app D pos a b) by lia. reflexivity.
    + intros; discriminate.
  - cbv zeta.
    set (pa := Z.to_nat (Z.min n (Z.of_nat (a - pos)))). set (pb := Z.to_nat (Z.min n (Z.of_nat (b - pos)))).
    destruct (Z.leb_spec (n - Z.of_nat pa) 0).
    + assert (E : pb = pa) by lia. rewrite E. destruct (Z.leb_spec (n - Z.of_nat pa) 0); [|lia]. apply IH. lia.
    + cbn [brun]. cbv zeta. assert (Ea : pa = (a - pos)%nat) by lia.
      set (pc := Z.to_nat (Z.min (n - Z.of_nat pa) (Z.of_nat (b - (pos + pa))))).
      assert (Ec : (pa + pc = pb)%nat) by lia.
      replace (n - Z.of_nat pa - Z.of_nat pc) with (n - Z.of_nat pb) by lia.
      replace (pos + pa + pc)%nat with (pos + pb)%nat by lia.
      rewrite <- app_assoc, <- slice_app by lia. reflexivity.
  - apply IH. exact Hp.
Qed.

(** * Bit-level sections in the same style *)

(** States a bit section can be suspended in once [a] bytes were visible. *)
Definition binv {T} (sec : list Z) (p : prog T) (b : breader) (pos a : nat) : Prop :=
  exists A k, Rest sec b pos A /\ (pos <= a)%nat /\ bok k p /\ (k <= br_nbits b + 8 * (a - pos))%nat.

Lemma binv_init {T} sec (p : prog T) : bok 0 p -> binv sec p br_init 0 0.
Proof. intros H. exists (bits_of_bytes sec), 0%nat. split; [apply Rest_init|]. split; [lia|]. split; [exact H|lia]. Qed.

Lemma section_call_pos {T} lenient sec (p : prog T) b pos a x c : (pos <= a)%nat ->
  section_call lenient sec p b pos a = SDone x c -> (c <= a)%nat.
Proof.
  intros Hp E. unfold section_call in E. destruct (mrun p _) as [y b'| |]; [|discriminate|].
  - destruct (br_suspend b') as [b'' un]. destruct (br_is_healthy _) as [h ?]. destruct h; [|discriminate].
    injection E as _ <-. rewrite firstn_length. lia.
  - destruct (br_suspend _) as [? ?]. destruct (_ <=? _)%nat; discriminate.
Qed.

Lemma section_stable {T} lenient sec (p : prog T) b pos a a' : bytes sec -> binv sec p b pos a ->
  (a <= a' <= length sec)%nat ->
  match section_call lenient sec p b pos a' with
  | SMore q b' pos' => binv sec q b' pos' a' /\ (a' < length sec)%nat /\
      section_call lenient sec q b' pos' (length sec) = section_call lenient sec p b pos (length sec)
  | x => x = section_call lenient sec p b pos (length sec)
  end.
Proof.
  intros Hb (A & k & HR & Hp & Hk & Hn) Ha.
  assert (Full : forall q b pos A k, Rest sec b pos A -> (pos <= length sec)%nat -> bok k q -> (k <= br_nbits b + 8 * (length sec - pos))%nat ->
            section_call lenient sec q b pos (length sec) = averdict lenient sec (q : prog T) A).
  { intros q b0 pos0 A0 k0 R0 P0 K0 N0. pose proof (section_call_spec lenient sec q b0 pos0 (length sec) A0 k0 Hb R0 P0 (le_n _) K0 N0) as S.
    destruct (section_call lenient sec q b0 pos0 (length sec)); [exact S|exact S|]. destruct S as (? & ? & _ & _ & S & _). lia. }
  pose proof (section_call_spec lenient sec p b pos a' A k Hb HR ltac:(lia) ltac:(lia) Hk ltac:(lia)) as S.
  rewrite (Full p b pos A k HR ltac:(lia) Hk ltac:(lia)).
  destruct (section_call lenient sec p b pos a') as [x c| |q b' pos']; [exact S|exact S|].
  destruct S as (A' & k' & R' & P' & L' & K' & N' & V'). split; [exists A', k'; exact (conj R' (conj P' (conj K' N')))|]. split; [exact L'|].
  rewrite V'. apply (Full q b' pos' A' k'); auto; lia.
Qed.

Lemma section_full_asection {T} lenient sec (p : prog T) : bytes sec -> bok 0 p ->
  section_call lenient sec p br_init 0 (length sec) =
  match asection (negb lenient) p sec with Some (a, n) => SDone a n | None => SFail end.
Proof.
  intros Hb Hk. pose proof (section_chunking lenient sec p [length sec] Hb Hk) as S. cbn [section_calls] in S.
  destruct (section_call lenient sec p br_init 0 (length sec)); (apply S; [cbn; lia|constructor; [lia|constructor]|left; reflexivity]).
Qed.
