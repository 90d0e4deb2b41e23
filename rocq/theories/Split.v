(** Split-keyboard messages.  Models /repo/src/split.rs 1-43.

    The wire format is produced by two external crates (Cargo.lock: postcard
    1.1.1 and cobs 0.2.3).  Their sources are not in /repo; the definitions
    marked EXTERNAL transcribe their behaviour on the values used here and are
    listed in the trusted base. *)
From Verif Require Import Base Output Types.
Local Open Scope N_scope.

(** split.rs 7 [BUFFER_SIZE]. *)
Definition BUFFER_SIZE : nat := 4.

(** ** EXTERNAL: postcard encoding of [input::Event] (input.rs 6-28, derived
    [Serialize]), [KeyOutput] (key.rs 460-466), [KeyUsage] (key.rs 436-446),
    [MouseOutput] (key.rs 608-620). *)

(** LEB128 varint of a [u16] (at most 3 bytes). *)
Definition varint_u16 (x : u16) : list u8 :=
  if x <? 128 then [x]
  else if x <? 16384 then [x mod 128 + 128; x / 128]
  else [x mod 128 + 128; (x / 128) mod 128 + 128; x / 16384].

(** [i8] is encoded as its two's complement byte. *)
Definition i8_byte (z : Z) : u8 := Z.to_N (z mod 256).
Definition byte_i8 (b : u8) : Z :=
  if b <? 128 then Z.of_N b else (Z.of_N b - 256)%Z.

Definition usage_payload (u : key_usage) : list u8 :=
  match u with
  | Keyboard c => [0; c]
  | Consumer c => [1; c]
  | Custom c => [2; c]
  | Mouse m => [3; mo_buttons m; i8_byte (mo_x m); i8_byte (mo_y m);
                i8_byte (mo_vscroll m); i8_byte (mo_hscroll m)]
  end.
Definition output_payload (ko : key_output) : list u8 := usage_payload (ko_usage ko) ++ [ko_mods ko].

(** Enum discriminants are varints; all of them are below 128 here. *)
Definition event_payload (ev : input_event) : list u8 :=
  match ev with
  | Press i => 0 :: varint_u16 i
  | Release i => 1 :: varint_u16 i
  | VirtualKeyPress ko => 2 :: output_payload ko
  | VirtualKeyRelease ko => 3 :: output_payload ko
  end.

(** Decoding a varint of at most [n] more bytes; [last] bounds the last byte.
    Mirrors [try_take_varint_u16/u32]. *)
Fixpoint take_varint (n : nat) (last : u8) (shift acc : N) (l : list u8) : option (N * list u8) :=
  match n, l with
  | O, _ => None
  | _, [] => None
  | S n', b :: t =>
      let acc' := acc + N.shiftl (b mod 128) shift in
      if b <? 128
      then match n' with
           | O => if last <? b then None else Some (acc', t)
           | S _ => Some (acc', t)
           end
      else take_varint n' last (shift + 7) acc' t
  end.
Definition take_u16 (l : list u8) : option (u16 * list u8) := take_varint 3 3 0 0 l.
Definition take_u32 (l : list u8) : option (u32 * list u8) := take_varint 5 15 0 0 l.
Definition take_u8 (l : list u8) : option (u8 * list u8) :=
  match l with [] => None | b :: t => Some (b, t) end.

Definition obind {A B} (o : option A) (f : A -> option B) : option B :=
  match o with Some a => f a | None => None end.

Definition take_mouse (l : list u8) : option (mouse_output * list u8) :=
  obind (take_u8 l) (fun '(b, l) =>
  obind (take_u8 l) (fun '(x, l) =>
  obind (take_u8 l) (fun '(y, l) =>
  obind (take_u8 l) (fun '(v, l) =>
  obind (take_u8 l) (fun '(h, l) =>
    Some (mkMouse b (byte_i8 x) (byte_i8 y) (byte_i8 v) (byte_i8 h), l)))))).
Definition take_usage (l : list u8) : option (key_usage * list u8) :=
  obind (take_u32 l) (fun '(d, l) =>
    if d =? 0 then obind (take_u8 l) (fun '(c, l) => Some (Keyboard c, l))
    else if d =? 1 then obind (take_u8 l) (fun '(c, l) => Some (Consumer c, l))
    else if d =? 2 then obind (take_u8 l) (fun '(c, l) => Some (Custom c, l))
    else if d =? 3 then obind (take_mouse l) (fun '(m, l) => Some (Mouse m, l))
    else None).
Definition take_output (l : list u8) : option (key_output * list u8) :=
  obind (take_usage l) (fun '(u, l) => obind (take_u8 l) (fun '(m, l) => Some (mkKO u m, l))).

(** [postcard::from_bytes]: bytes after the value are ignored. *)
Definition parse_event (l : list u8) : option input_event :=
  obind (take_u32 l) (fun '(d, l) =>
    if d =? 0 then obind (take_u16 l) (fun '(i, _) => Some (Press i))
    else if d =? 1 then obind (take_u16 l) (fun '(i, _) => Some (Release i))
    else if d =? 2 then obind (take_output l) (fun '(ko, _) => Some (VirtualKeyPress ko))
    else if d =? 3 then obind (take_output l) (fun '(ko, _) => Some (VirtualKeyRelease ko))
    else None).

(** ** EXTERNAL: COBS.  [cobs_encode] is the encoding without the terminator,
    for runs of fewer than 254 non-zero bytes (payloads here have at most 8
    bytes). *)
Fixpoint cobs_go (run : list u8) (l : list u8) : list u8 :=
  match l with
  | [] => N.of_nat (S (length run)) :: run
  | b :: t =>
      if b =? 0 then N.of_nat (S (length run)) :: run ++ cobs_go [] t
      else cobs_go (run ++ [b]) t
  end.
Definition cobs_encode (l : list u8) : list u8 := cobs_go [] l.

(** [cobs::decode_in_place] stops at the first zero byte (or the end). *)
Fixpoint until_zero (l : list u8) : list u8 :=
  match l with
  | [] => []
  | b :: t => if b =? 0 then [] else b :: until_zero t
  end.
Fixpoint cobs_groups (fuel : nat) (l : list u8) : option (list u8) :=
  match fuel, l with
  | _, [] => Some []
  | O, _ => None
  | S f, code :: t =>
      let n := (N.to_nat code - 1)%nat in
      if (length t <? n)%nat then None
      else
        let rest := skipn n t in
        match cobs_groups f rest with
        | None => None
        | Some d =>
            Some (firstn n t
                  ++ (if negb (code =? 255) && negb (length rest =? 0)%nat then 0 :: d else d))
        end
  end.
Definition cobs_decode (l : list u8) : option (list u8) :=
  let l := until_zero l in cobs_groups (length l) l.

(** ** split.rs *)

(** split.rs 23-27 [serialize]: [to_slice_cobs] writes the encoding and a zero
    terminator into the zeroed buffer; too long is an error and [unwrap] panics. *)
Definition serialize (ev : input_event) : res (list u8) :=
  let bytes := cobs_encode (event_payload ev) ++ [0] in
  if (length bytes <=? BUFFER_SIZE)%nat
  then Ok (bytes ++ repeat 0 (BUFFER_SIZE - length bytes))
  else Panic.

(** split.rs 30-34 [deserialize]: slicing panics on fewer than 4 bytes. *)
Definition deserialize (bytes : list u8) : res (option input_event) :=
  if (length bytes <? BUFFER_SIZE)%nat then Panic
  else Ok (obind (cobs_decode (firstn BUFFER_SIZE bytes)) parse_event).

(** split.rs 39-43 [receive_byte]: the buffer is 4 bytes; [rotate_left(1)] and
    overwriting the last byte shifts the window by one. *)
Definition receive_byte (buf : list u8) (byte : u8) : list u8 * res (option input_event) :=
  let buf' := tl buf ++ [byte] in (buf', deserialize buf').

(** Feeding a stream of bytes to [receive_byte] and collecting the decoded
    events (as in the test at split.rs 91-112). *)
Fixpoint receive_all (buf : list u8) (bytes : list u8) : res (list u8 * list input_event) :=
  match bytes with
  | [] => Ok (buf, [])
  | b :: t =>
      let '(buf', o) := receive_byte buf b in
      let! o := o in
      let! (buf'', evs) := receive_all buf' t in
      Ok (buf'', match o with Some ev => ev :: evs | None => evs end)
  end.
