(** The input side of the streaming decoder: ProcessJpeg and its look-ahead buffer
    (c/dec/brunsli_decode.cc:2314-2454). *)
From Verif Require Import Base ContainerModel.

(** A parser sees a window of unread bytes and reports a status, how many of them it
    consumed, and its new state.  [failed] holds in the states in which it has
    reported an error. *)
Record parser := mkParser {
  pa_state : Type;
  pa_run : pa_state -> list Z -> status * nat * pa_state;
  pa_failed : pa_state -> bool }.

(** brunsli_decode.cc:2325. *)
Definition read_ahead : nat := 600.
(** The buffer has twice that (2372); [None]: written past its end. *)
Definition store (l : list Z) : option (list Z) := if (length l <=? 2 * read_ahead)%nat then Some l else None.

(** Decoder state between calls: buffered bytes (data[0..data_len)) and the parser. *)
Record dstate (P : parser) := mkD { d_buf : list Z; d_st : pa_state P }.
Arguments mkD {P} d_buf d_st.
Arguments d_buf {P} d.
Arguments d_st {P} d.

(** Result of a call: status, bytes taken from the caller, new state. *)
Definition dresult (P : parser) : Type := option (status * nat * dstate P).

(** LoadInput 2329-2337 and UnloadInput 2363-2377: unbuffered input from position [p] of
    the caller's bytes. *)
Definition drive_external (P : parser) (s : pa_state P) (ext : list Z) (p : nat) : dresult P :=
  let '(r, c, s') := pa_run P s (skipn p ext) in
  match r with
  | StNeed =>
      let? b := store (skipn (p + c) ext) in
      Some (StNeed, length ext, mkD b s')
  | _ => Some (r, (p + c)%nat, mkD [] s')
  end.

(** ProcessJpeg 2417-2454.  The loop makes at most two rounds: one with buffered input
    (LoadInput 2339-2352, UnloadInput 2379-2404), one with the caller's. *)
Definition drive (P : parser) (d : dstate P) (ext : list Z) : dresult P :=
  if pa_failed P (d_st d) then Some (StInvalid, 0%nat, d) else
  match d_buf d with
  | [] => drive_external P (d_st d) ext 0
  | _ :: _ =>
      let buf := d_buf d in
      let borrowed := firstn read_ahead ext in
      let? w := store (buf ++ borrowed) in
      let '(r, c, s') := pa_run P (d_st d) w in
      if (length buf <=? c)%nat then
        (* buffer depleted *)
        match r with
        | StNeed => drive_external P s' ext (c - length buf)
        | _ => Some (r, (c - length buf)%nat, mkD [] s')
        end
      else
        match r with
        | StNeed => Some (StNeed, length borrowed, mkD (skipn c w) s')
        | _ => Some (r, 0%nat, mkD (skipn c buf) s')
        end
  end.

(** A caller that hands over one chunk, and again what is left of it, until all is
    taken or an error is reported.  Two calls always suffice: only a finished
    parse leaves bytes behind, and a finished parse takes no more. *)
Definition drive_chunk (P : parser) (d : dstate P) (ext : list Z) : option (status * dstate P) :=
  let? r := drive P d ext in
  let '(st, c, d1) := r in
  match st with
  | StOk =>
      if (c <? length ext)%nat then
        let? r2 := drive P d1 (skipn c ext) in
        let '(st2, _, d2) := r2 in Some (st2, d2)
      else Some (StOk, d1)
  | _ => Some (st, d1)
  end.

(** Feeding chunk after chunk; the status of the last call counts. *)
Fixpoint drive_chunks (P : parser) (d : dstate P) (st : status) (chunks : list (list Z)) : option (status * dstate P) :=
  match chunks with
  | [] => Some (st, d)
  | ext :: rest =>
      let? r := drive_chunk P d ext in
      drive_chunks P (snd r) (fst r) rest
  end.

(** The parser of ContainerModel on the input [D]: the window starts at the current
    position.  A window that does not show the bytes of [D] at that position is
    answered with an error, so that nothing can be concluded about such a call. *)
Definition state_pos {X} (s : pstate X) : nat :=
  match s with PRun _ pos => pos | PDone _ q => q | PError => 0%nat end.
Definition stream_parser (X : Type) (D : list Z) : parser := {|
  pa_state := pstate X;
  pa_run := fun s w =>
    if list_eqb w (Stream.slice D (state_pos s) (state_pos s + length w)) then
      let '(r, s') := do_process D s (state_pos s + length w) in
      (r, (state_pos s' - state_pos s)%nat, s')
    else (StInvalid, 0%nat, PError);
  pa_failed := fun s => match s with PError => true | _ => false end |}.
