(** Sections read word by word: resumable DC and AC decoding (c/dec/brunsli_decode.cc:615-739,
    865-976, 1932-1976 and c/dec/brunsli_input.h). *)
From Verif Require Import Base EntropyModel LehmerModel Stream CoefModel.

(** Decoders as in EntropyModel.v, with the places where WordSource::CanRead is asked and the
    decoder may be suspended ([WdNeed], in words). *)
Inductive wprog (A : Type) : Type :=
| WdRet (a : A)
| WdFail
| WdNeed (n : nat) (k : wprog A)
| WdBit (prob : Z) (k : bool -> wprog A)
| WdSym (counts : list Z) (k : Z -> wprog A)
| WdBits (n : nat) (k : Z -> wprog A).
Arguments WdRet {A} a.
Arguments WdFail {A}.
Arguments WdNeed {A} n k.
Arguments WdBit {A} prob k.
Arguments WdSym {A} counts k.
Arguments WdBits {A} n k.

(** A part without such places, and what follows it. *)
Fixpoint wlift {A B} (p : eprog A) (g : A -> wprog B) : wprog B :=
  match p with
  | ERet a => g a
  | EFail => WdFail
  | EBit q k => WdBit q (fun b => wlift (k b) g)
  | ESym c k => WdSym c (fun s => wlift (k s) g)
  | EBits n k => WdBits n (fun v => wlift (k v) g)
  end.

(** The same decoder without them. *)
Fixpoint strip {A} (p : wprog A) : eprog A :=
  match p with
  | WdRet a => ERet a
  | WdFail => EFail
  | WdNeed _ k => strip k
  | WdBit q k => EBit q (fun b => strip (k b))
  | WdSym c k => ESym c (fun s => strip (k s))
  | WdBits n k => EBits n (fun v => strip (k v))
  end.

(** Running until the end, a failure or a suspension.  [opt]: WordSource::optimistic_;
    CanRead is brunsli_input.h:43-50. *)
Inductive wout (A : Type) : Type :=
| WoDone (a : A) (d : dstate)
| WoBad
| WoMore (p : wprog A) (d : dstate).
Arguments WoDone {A} a d.
Arguments WoBad {A}.
Arguments WoMore {A} p d.

Definition can_read (opt : bool) (n : nat) (d : dstate) : bool := opt || (n <=? length (ws_words (d_src d)))%nat.

Fixpoint wrun {A} (opt : bool) (p : wprog A) (d : dstate) : wout A :=
  match p with
  | WdRet a => WoDone a d
  | WdFail => WoBad
  | WdNeed n k => if can_read opt n d then wrun opt k d else WoMore p d
  | WdBit q k => let '(b, d') := read_bit q d in wrun opt (k b) d'
  | WdSym c k => match read_symbol c d with Some (s, d') => wrun opt (k s) d' | None => WoBad end
  | WdBits n k => let '(v, d') := read_bits n d in wrun opt (k v) d'
  end.

(** A suspended section: what is left to do, the subdecoders (not yet initialised at first,
    brunsli_decode.cc:597-605) and the position in the section. *)
Record wstate (A : Type) := mkW { w_prog : wprog A; w_sub : option dstate; w_pos : nat }.
Arguments mkW {A} w_prog w_sub w_pos.
Arguments w_prog {A}. Arguments w_sub {A}. Arguments w_pos {A}.

(** The subdecoders keep their state between calls; the word source is new (1940, 1963). *)
Definition set_src (d : dstate) (src : wsrc) : dstate :=
  mkD (d_ans d) (d_val d) (d_bitpos d) (d_low d) (d_high d) (d_value d) src.

(** brunsli_decode.cc:1932-1953 and 1955-1976, DecodeDCDataSection and DecodeACDataSection, with
    the test for an even length (2153-2156, 2167-2170) and the one that the section has been
    used up (1949, 1972 for the last chunk, 2178-2180 in any case).  [V]: input from the start of the
    section on, [n]: section length, [avail]: visible bytes of [V]. *)
Definition wcall {A} (n : nat) (V : list Z) (s : wstate A) (avail : nat) : res (wstate A) A :=
  if Nat.odd n then RFail
  else
    let pos := w_pos s in
    let limit := (n - pos)%nat in
    let chunk := Nat.min ((avail - pos) / 2 * 2) limit in
    let last := (chunk =? limit)%nat in
    let words := bytes_to_words (slice V pos (pos + chunk)) in
    let src := mkWS words false in
    let go (d : dstate) :=
      match wrun last (w_prog s) d with
      | WoBad => RFail
      | WoDone a d' =>
          let q := (pos + 2 * (length words - length (ws_words (d_src d'))))%nat in
          if ws_error (d_src d') then RFail
          else if negb (d_finalize d') then RFail
          else if negb (q =? n)%nat then RFail
          else RDone a q
      | WoMore p d' =>
          let q := (pos + 2 * (length words - length (ws_words (d_src d'))))%nat in
          if ws_error (d_src d') then RFail
          else if last then RFail
          else RMore (mkW p (Some d') q)
      end in
    match w_sub s with
    | Some d => go (set_src d src)
    | None => if last || (5 <=? length words)%nat then go (d_init src) else RMore s
    end.

(** * DC *)

Definition wget {A B} (o : option A) (k : A -> wprog B) : wprog B := match o with Some a => k a | None => WdFail end.

(** brunsli_decode.cc:615-739: as [dec_dc], asking for 6 words before every block (661). *)
Fixpoint wdec_dc (cmap : list Z) (codes : list (list Z)) (ms : list cmeta) (vs : list (nat * nat * nat))
    (sts : list dcst) (planes : list plane) (flags : list (list bool)) : wprog (list plane * list (list bool)) :=
  match vs with
  | [] => WdRet (planes, flags)
  | (i, y, x) :: rest =>
      WdNeed 6
      (wget (nth_error ms i) (fun m =>
      wget (nth_error sts i) (fun st =>
      wget (nth_error planes i) (fun p =>
      wget (nth_error flags i) (fun fl =>
      let j := (y * cm_w m + x)%nat in
      wlift (dec_dc_block cmap codes (Z.of_nat i) st (Z.of_nat x)) (fun '(is_empty, sign, absval, st') =>
      wget (zset fl (Z.of_nat j) is_empty) (fun fl' =>
      wget (nth_error p j) (fun b =>
      let v := to_i16 ((1 - 2 * sign) * absval + predict (cm_w m) p x y) in
      wdec_dc cmap codes ms rest (upd sts i st') (upd planes i (upd p j (put_dc b v))) (upd flags i fl')))))))))
  end.
Definition wdecode_dc (cmap : list Z) (codes : list (list Z)) (ms : list cmeta) : wprog (list plane * list (list bool)) :=
  wdec_dc cmap codes ms (visits ms) (map (fun m => dc_init (cm_w m)) ms)
    (map (fun m => repeat (repeat 0 64) (cm_w m * cm_h m)) ms) (map (fun m => repeat false (cm_w m * cm_h m)) ms).

(** * AC *)

(** brunsli_decode.cc:903-968: as [dec_ac], asking for 297 words before every block that is not
    empty (941). *)
Fixpoint wdec_ac (cmap : list Z) (codes : list (list Z)) (legacy : bool) (ms : list cmeta) (aks : list accst) (flags : list (list bool)) (vs : list (nat * nat * nat))
    (sts : list acst) (planes : list plane) : wprog (list plane) :=
  match vs with
  | [] => WdRet planes
  | (i, y, x) :: rest =>
      wget (nth_error ms i) (fun m =>
      wget (nth_error aks i) (fun ak =>
      wget (nth_error sts i) (fun st =>
      wget (nth_error planes i) (fun p =>
      wget (nth_error flags i) (fun fl =>
      let j := (y * cm_w m + x)%nat in
      wget (nth_error p j) (fun b =>
      wget (nth_error fl j) (fun e =>
      let go := wlift (dec_ac_block cmap codes legacy ak m (neighbours (cm_w m) p x y) e b st) (fun '(b', st') =>
        wdec_ac cmap codes legacy ms aks flags rest (upd sts i st') (upd planes i (upd p j b'))) in
      if e then go else WdNeed 297 go)))))))
  end.
(** brunsli_decode.cc:884-896: 121 words before every order. *)
Fixpoint wdecode_orders {B} (n : nat) (acc : list (list Z)) (k : list (list Z) -> wprog B) : wprog B :=
  match n with
  | O => k (rev acc)
  | S n' => WdNeed 121 (wlift decode_coeff_order (fun o => wdecode_orders n' (o :: acc) k))
  end.
Definition wdecode_ac (cmap : list Z) (codes : list (list Z)) (legacy : bool) (ms : list cmeta) (flags : list (list bool)) (planes : list plane) : wprog (list plane) :=
  wdecode_orders (length ms) [] (fun orders =>
  wget (omap2 (fun m o => Some (ac_consts m o)) ms orders) (fun aks =>
  wdec_ac cmap codes legacy ms aks flags (visits ms) (map (fun m => ac_init (cm_w m)) ms) planes)).
