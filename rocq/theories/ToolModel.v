(** The command-line tools (c/tools/cbrunsli.cc, c/tools/dbrunsli.cc), without BRUNSLI_EXPERIMENTAL_GROUPS: files, faults of the file
    system, exit codes. *)
From Verif Require Import Base JpegModel JBitModel JFileModel Stream Machine ContainerModel MetaModel Decoder Encoder SizeModel.

(** * Files *)
Definition name := list Z.
Definition files := name -> option (list Z).
Definition put (f : files) (n : name) (content : list Z) : files := fun m => if list_eq_dec Z.eq_dec m n then Some content else f m.

(** How a tool ends: EXIT_SUCCESS, EXIT_FAILURE, an exception that nobody catches, undefined behaviour. *)
Inductive exit := Success | Failure | Terminated | Undefined.

(** What the C library answers while a file is read: any call may fail, fread may give fewer bytes than asked for. *)
Record reading := mkReading { rd_open : bool; rd_seek_end : bool; rd_tell : bool; rd_seek_set : bool; rd_some : nat -> nat; rd_close : bool }.
(** And while one is written; [wr_flushed]: how much of the file is on the disk when a call fails. *)
Record writing := mkWriting { wr_open : bool; wr_some : nat -> nat; wr_close : bool; wr_flushed : nat }.

(** cbrunsli.cc:34, dbrunsli.cc:41: [int input_size = ftell(file)], long to int (modulo 2^32, as all compilers do). *)
Definition to_int (v : Z) : Z := (v + 2 ^ 31) mod 2 ^ 32 - 2 ^ 31.

(** cbrunsli.cc:44-53, dbrunsli.cc:51-60: the loop over fread; [i] counts the calls.  [want] is content->size() - read_pos.  Every call
    that goes on takes a byte, so that [fuel] = S want is enough. *)
Fixpoint fread_loop (fuel : nat) (some : nat -> nat) (i : nat) (rest : list Z) (want : nat) : option (list Z) :=
  match fuel with
  | O => None
  | S f =>
      if (want =? 0)%nat then Some []
      else
        let n := Nat.min (some i) (Nat.min want (length rest)) in
        if (n =? 0)%nat then None
        else let? r := fread_loop f some (S i) (skipn n rest) (want - n) in Some (firstn n rest ++ r)
  end.

(** cbrunsli.cc:29-71, dbrunsli.cc:36-78, ReadFile and ReadFileInternal.  A negative size makes resize throw std::length_error. *)
Definition read_file (x : reading) (content : option (list Z)) : exit * list Z :=
  match content with
  | None => (Failure, [])
  | Some c =>
      if negb (rd_open x) then (Failure, []) else
      if negb (rd_seek_end x) then (Failure, []) else
      let size := to_int (if rd_tell x then Z.of_nat (length c) else -1) in
      if size =? 0 then (Failure, []) else
      if negb (rd_seek_set x) then (Failure, []) else
      if size <? 0 then (Terminated, []) else
      match fread_loop (S (Z.to_nat size)) (rd_some x) 0 c (Z.to_nat size) with
      | Some l => if rd_close x then (Success, l) else (Failure, [])
      | None => (Failure, [])
      end
  end.

(** cbrunsli.cc:73-85, dbrunsli.cc:80-92: the loop over fwrite; the number of bytes handed over and whether all were. *)
Fixpoint fwrite_loop (fuel : nat) (some : nat -> nat) (i : nat) (want : nat) : nat * bool :=
  match fuel with
  | O => (0%nat, false)
  | S f =>
      if (want =? 0)%nat then (0%nat, true)
      else
        let n := Nat.min (some i) want in
        if (n =? 0)%nat then (0%nat, false)
        else let r := fwrite_loop f some (S i) (want - n) in ((n + fst r)%nat, snd r)
  end.

(** cbrunsli.cc:87-101, dbrunsli.cc:94-108, WriteFile.  fopen(.., "wb") empties the file. *)
Definition write_file (x : writing) (f : files) (out : name) (content : list Z) : exit * files :=
  if negb (wr_open x) then (Failure, f) else
  let r := fwrite_loop (S (length content)) (wr_some x) 0 (length content) in
  if snd r && wr_close x then (Success, put f out (firstn (fst r) content))
  else (Failure, put f out (firstn (Nat.min (fst r) (wr_flushed x)) content)).

(** * cbrunsli *)

(** cbrunsli.cc:103-147, ProcessFile up to WriteFile.  std::string::resize throws for 2^63 bytes and more.  [None] of the encoder is
    both "returns false" and "writes behind the buffer" (Encoder.v, C53); here it is taken as a failure. *)
Definition compress_input (O : oracle) (x : reading) (f : files) (inp : name) : exit * list Z :=
  match read_file x (f inp) with
  | (Success, input) =>
      match read_jpeg RAll input with
      | JOk j =>
          if 2 ^ 63 <=? max_encoded_size j then (Terminated, []) else
          match brunsli_encode_jpeg O j (max_encoded_size j) with
          | Some out => (Success, out)
          | None => (Failure, [])
          end
      | JErr => (Failure, [])
      | JUB => (Undefined, [])
      end
  | (e, _) => (e, [])
  end.

(** * dbrunsli *)

(** dbrunsli.cc:110-155, ProcessFile up to WriteFile; StringWriter takes everything. *)
Definition expand_input (B : brotli) (x : reading) (f : files) (inp : name) : exit * list Z :=
  match read_file x (f inp) with
  | (Success, input) =>
      match brunsli_decode_jpeg B input with
      | (StOk, Some (OImage j)) =>
          match write_jpeg j with
          | JOk out => (Success, out)
          | JErr => (Failure, [])
          | JUB => (Undefined, [])
          end
      | (StOk, Some (OOriginal d)) => (Success, d)
      | _ => (Failure, [])
      end
  | (e, _) => (e, [])
  end.

(** * main *)

(** cbrunsli.cc:149-163, dbrunsli.cc:157-172: argv without the name of the program. *)
Definition file_names (suffix : list Z) (args : list name) : option (name * name) :=
  match args with
  | [a] => if (length a =? 0)%nat then None else Some (a, a ++ suffix)
  | [a; b] => if (length a =? 0)%nat then None else Some (a, b)
  | _ => None
  end.
Definition dot_brn : list Z := [46; 98; 114; 110].
Definition dot_jpg : list Z := [46; 106; 112; 103].

Definition tool (suffix : list Z) (work : files -> name -> exit * list Z) (w : writing) (f : files) (args : list name) : exit * files :=
  match file_names suffix args with
  | None => (Failure, f)
  | Some (inp, out) =>
      match work f inp with
      | (Success, bytes) => write_file w f out bytes
      | (e, _) => (e, f)
      end
  end.

Definition cbrunsli (O : oracle) (x : reading) (w : writing) (f : files) (args : list name) : exit * files := tool dot_brn (compress_input O x) w f args.
Definition dbrunsli (B : brotli) (x : reading) (w : writing) (f : files) (args : list name) : exit * files := tool dot_jpg (expand_input B x) w f args.

(** cbrunsli is killed, or the machine stops, at any moment: nothing has happened to the files yet, or some of the output has reached the disk. *)
Definition cbrunsli_killed (O : oracle) (x : reading) (f : files) (args : list name) (f' : files) : Prop :=
  f' = f \/ exists inp out bytes k, file_names dot_brn args = Some (inp, out) /\ compress_input O x f inp = (Success, bytes) /\ f' = put f out (firstn k bytes).
