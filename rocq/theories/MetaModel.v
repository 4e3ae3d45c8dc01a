(** Model of the metadata section: APP and COM segments and the bytes after the
    end-of-image marker. *)
From Verif Require Import Base CodesModel Tables Stream.

(** * Encoder *)

(** c/enc/brunsli_encode.cc:124-129: the loop keeps the last match. *)
Fixpoint density_index (i : Z) (l : list Z) (x y acc : Z) : Z :=
  match l with
  | [] => acc
  | d :: r => density_index (i + 1) r x y (if (x =? d) && (y =? x) then i else acc)
  end.

(** brunsli_encode.cc:111-138, TransformApp0Marker.  The result is stored in a
    uint8_t. *)
Definition transform_app0 (s : list Z) : option (list Z) :=
  if negb (length s =? 17)%nat then None
  else if negb (list_eqb (firstn 9 s) (firstn 9 app_data_e0)) then None
  else
    let at_ i := nth i s 0 in
    if ((at_ 9%nat =? 1) || (at_ 9%nat =? 2)) && (at_ 10%nat <? 4) && (at_ 15%nat =? 0) && (at_ 16%nat =? 0) then
      let x := Z.shiftl (at_ 11%nat) 8 + at_ 12%nat in
      let y := Z.shiftl (at_ 13%nat) 8 + at_ 14%nat in
      let ix := density_index 0 kApp0Densities x y (-1) in
      if 0 <=? ix then Some [Z.lor (Z.lor (at_ 9%nat - 1) (Z.shiftl (at_ 10%nat) 1)) (Z.shiftl ix 3) mod 256] else None
    else None.

(** brunsli_encode.cc:140-177, TransformApp2Marker, TransformApp12Marker and
    TransformApp14Marker: same shape, the template's byte [hole] is free. *)
Definition transform_hole (template : list Z) (hole : nat) (code : Z) (s : list Z) : option (list Z) :=
  if (length s =? length template)%nat && list_eqb (firstn hole s) (firstn hole template)
     && list_eqb (skipn (S hole) s) (skipn (S hole) template)
  then Some [code; nth hole s 0] else None.

(** brunsli_encode.cc:179-199, TransformAppMarker; true: counted as transformed. *)
Definition transform_app (s : list Z) : list Z * bool :=
  match transform_app0 s with
  | Some o => (o, true)
  | None =>
      match transform_hole app_data_e2 84 128 s with
      | Some o => (o, true)
      | None =>
          match transform_hole app_data_ec 15 129 s with
          | Some o => (o, true)
          | None =>
              match transform_hole app_data_ee 10 130 s with
              | Some o => (o, true)
              | None => (s, false)
              end
          end
      end
  end.

(** constants.h:42-43. *)
Definition kShortMarkerLimit : Z := 64 + 3 * 256.
Definition kMultibyteMarkerLimit : Z := 1024.

(** brunsli_encode.cc:836-872: the metadata string. *)
Definition metadata_string (app com : list (list Z)) (tail : list Z) : option (list Z) :=
  let t := map transform_app app in
  let short := Z.of_nat (length (filter snd t)) in
  if kShortMarkerLimit <? short then None
  else if kMultibyteMarkerLimit <? Z.of_nat (length app) - short then None
  else if kMultibyteMarkerLimit <? Z.of_nat (length com) then None
  else Some (concat (map fst t) ++ concat com ++ (match tail with [] => [] | _ => 217 :: tail end)).

(** brunsli_encode.cc:873-897.  [compress] is BrotliEncoderCompress; that its
    output fits the section buffer is not modelled here. *)
Definition encode_metadata (compress : list Z -> option (list Z)) (app com : list (list Z)) (tail : list Z) : option (list Z) :=
  let? m := metadata_string app com tail in
  match m with
  | [] => Some []
  | [x] => Some [x]
  | _ => let? c := compress m in Some (encode_base128 (Z.of_nat (length m)) ++ c)
  end.

(** * Decoder *)

(** c/dec/brunsli_decode.cc:176-187, GenerateApp0Marker ([status] is a byte, the
    right shifts drop bits). *)
Definition generate_app0 (status : Z) : list Z :=
  let v9 := if Z.land status 1 =? 0 then 1 else 2 in
  let v10 := Z.land (Z.shiftr status 1) 3 in
  let d := nth (Z.to_nat (Z.shiftr status 3)) kApp0Densities 0 in
  let l := upd (upd app_data_e0 9 v9) 10 v10 in
  upd (upd (upd (upd l 11 (Z.shiftr d 8)) 13 (Z.shiftr d 8)) 12 (Z.land d 255)) 14 (Z.land d 255).

(** brunsli_decode.cc:189-203, GenerateAppMarker. *)
Definition generate_app (marker code : Z) : list Z :=
  if marker =? 128 then upd app_data_e2 84 code
  else if marker =? 129 then upd app_data_ec 15 code
  else upd app_data_ee 10 code.

(** c/dec/state_internal.h:150-182, MetadataState, with the part of JPEGData it
    fills.  multibyte_sink is the last element of com_data or app_data, as chosen
    by [m_marker]. *)
Inductive mstage := SMarker | STail | SCode | SLenHi | SLenLo | SMulti.
Record mstate := mkM {
  m_stage : mstage; m_marker : Z; m_hi : Z; m_short : Z; m_rem : Z;
  m_app : list (list Z); m_com : list (list Z); m_tail : list Z }.
Definition m_init : mstate := mkM SMarker 0 0 0 0 [] [] [].

Fixpoint append_last (l : list (list Z)) (d : list Z) : list (list Z) :=
  match l with
  | [] => []
  | [x] => [x ++ d]
  | x :: r => x :: append_last r d
  end.

(** One pass of the loop body of ProcessMetaData (brunsli_decode.cc:204-295) on
    non-empty [data]; the result tells how much is left. *)
Definition pmd_body (s : mstate) (data : list Z) : option (mstate * list Z) :=
  match data with
  | [] => Some (s, [])
  | b :: rest =>
      match m_stage s with
      | SMarker =>
          if b =? 217 then Some (mkM STail b (m_hi s) (m_short s) (m_rem s) (m_app s) (m_com s) [], rest)
          else if b <? 64 then
            if kShortMarkerLimit <? m_short s + 1 then None
            else Some (mkM SMarker b (m_hi s) (m_short s + 1) (m_rem s) (m_app s ++ [generate_app0 b]) (m_com s) (m_tail s), rest)
          else if (128 <=? b) && (b <=? 130) then
            if kShortMarkerLimit <? m_short s + 1 then None
            else Some (mkM SCode b (m_hi s) (m_short s + 1) (m_rem s) (m_app s) (m_com s) (m_tail s), rest)
          else if negb (b =? 254) && negb (Z.shiftr b 4 =? 14) then None
          else Some (mkM SLenHi b (m_hi s) (m_short s) (m_rem s) (m_app s) (m_com s) (m_tail s), rest)
      | STail => Some (mkM STail (m_marker s) (m_hi s) (m_short s) (m_rem s) (m_app s) (m_com s) (m_tail s ++ data), [])
      | SCode => Some (mkM SMarker (m_marker s) (m_hi s) (m_short s) (m_rem s) (m_app s ++ [generate_app (m_marker s) b]) (m_com s) (m_tail s), rest)
      | SLenHi => Some (mkM SLenLo (m_marker s) b (m_short s) (m_rem s) (m_app s) (m_com s) (m_tail s), rest)
      | SLenLo =>
          let len := Z.shiftl (m_hi s) 8 + b in
          if len <? 2 then None
          else
            let rem := len - 2 in
            let head := [m_marker s; m_hi s; b] in
            let st := if 0 <? rem then SMulti else SMarker in
            if m_marker s =? 254 then
              if kMultibyteMarkerLimit <=? Z.of_nat (length (m_com s)) then None
              else Some (mkM st (m_marker s) (m_hi s) (m_short s) rem (m_app s) (m_com s ++ [head]) (m_tail s), rest)
            else
              if kMultibyteMarkerLimit <=? (Z.of_nat (length (m_app s)) - m_short s) mod 2 ^ 64 then None
              else Some (mkM st (m_marker s) (m_hi s) (m_short s) rem (m_app s ++ [head]) (m_com s) (m_tail s), rest)
      | SMulti =>
          let k := Z.min (m_rem s) (Z.of_nat (length data)) in
          let piece := firstn (Z.to_nat k) data in
          let rem := m_rem s - k in
          let st := if rem =? 0 then SMarker else SMulti in
          let rest := skipn (Z.to_nat k) data in
          if m_marker s =? 254
          then Some (mkM st (m_marker s) (m_hi s) (m_short s) rem (m_app s) (append_last (m_com s) piece) (m_tail s), rest)
          else Some (mkM st (m_marker s) (m_hi s) (m_short s) rem (append_last (m_app s) piece) (m_com s) (m_tail s), rest)
      end
  end.

(** ProcessMetaData: [PStuck] only if the loop did not end within [fuel] passes. *)
Inductive pres := POk (s : mstate) | PBad | PStuck.
Fixpoint pmd_loop (fuel : nat) (s : mstate) (data : list Z) : pres :=
  match data with
  | [] => POk s
  | _ =>
      match fuel with
      | O => PStuck
      | S f => match pmd_body s data with None => PBad | Some (s', rest) => pmd_loop f s' rest end
      end
  end.
Definition process_metadata (s : mstate) (data : list Z) : pres := pmd_loop (length data) s data.

(** state_internal.h:181, CanFinish. *)
Definition can_finish (s : mstate) : bool := match m_stage s with SMarker | STail => true | _ => false end.

(** The Brotli decoder as a machine that consumes bytes one after the other: [None] is an
    error, otherwise the output caused by the byte, and the next state or the end of
    the stream.  The passes with NEEDS_MORE_OUTPUT are not distinguished: they hand
    the same bytes to ProcessMetaData in several pieces. *)
Record brotli := mkBro { b_state : Type; b_start : b_state; b_step : b_state -> Z -> option (list Z * option b_state) }.

Inductive bres (T : Type) := BrError | BrEnd (out : list Z) (used : nat) | BrMore (out : list Z) (st : T).
Arguments BrError {T}. Arguments BrEnd {T}. Arguments BrMore {T}.
Fixpoint bro_run (B : brotli) (st : b_state B) (data : list Z) : bres (b_state B) :=
  match data with
  | [] => BrMore [] st
  | x :: r =>
      match b_step B st x with
      | None => BrError
      | Some (o, None) => BrEnd o 1
      | Some (o, Some st') =>
          match bro_run B st' r with
          | BrError => BrError
          | BrEnd o' u => BrEnd (o ++ o') (S u)
          | BrMore o' st'' => BrMore (o ++ o') st''
          end
      end
  end.

(** brunsli_decode.cc:1272-1364, DecodeMetaDataSection.  Positions are relative to
    the start of the section, [n] is its length. *)
Inductive mdstate (B : brotli) :=
| MDInitial
| MDLength
| MDBrotli (st : b_state B) (size out : Z) (ms : mstate) (pos : nat).
Arguments MDInitial {B}. Arguments MDLength {B}. Arguments MDBrotli {B}.

Definition md_brotli {B} (D : list Z) (n : nat) (st : b_state B) (size out : Z) (ms : mstate) (pos avail : nat) : res (mdstate B) mstate :=
  match bro_run B st (slice D pos (Nat.min avail n)) with
  | BrError => RFail
  | BrEnd o u =>
      if size <? out + Z.of_nat (length o) then RFail
      else match process_metadata ms o with
           | POk ms' =>
               if negb (pos + u =? n)%nat then RFail
               else if negb (out + Z.of_nat (length o) =? size) then RFail
               else if negb (can_finish ms') then RFail
               else RDone ms' n
           | _ => RFail
           end
  | BrMore o st' =>
      if size <? out + Z.of_nat (length o) then RFail
      else match process_metadata ms o with
           | POk ms' =>
               if (n <=? avail)%nat then RFail
               else RMore (MDBrotli st' size (out + Z.of_nat (length o)) ms' (Nat.max pos avail))
           | _ => RFail
           end
  end.

Definition md_length {B} (D : list Z) (n : nat) (avail : nat) : res (mdstate B) mstate :=
  match decode_base128 (slice D 0 avail) with
  | BNeed => RMore MDLength
  | BBad => RFail
  | BOk v rest =>
      let pos := (avail - length rest)%nat in
      if (n <? pos)%nat then RFail
      else if (n =? pos)%nat then RFail
      else md_brotli D n (b_start B) v 0 m_init pos avail
  end.

Definition mdcall (B : brotli) (D : list Z) (n : nat) (s : mdstate B) (avail : nat) : res (mdstate B) mstate :=
  match s with
  | MDInitial =>
      if (n =? 0)%nat then RDone m_init 0
      else if (n =? 1)%nat then
        if (avail =? 0)%nat then RMore MDInitial
        else match process_metadata m_init [nth 0 D 0] with
             | POk ms => if can_finish ms then RDone ms 1 else RFail
             | _ => RFail
             end
      else md_length D n avail
  | MDLength => md_length D n avail
  | MDBrotli st size out ms pos => md_brotli D n st size out ms pos avail
  end.
