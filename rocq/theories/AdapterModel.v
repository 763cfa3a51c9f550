(** Model of src/ansibug/dap/_adapter.py: DebugAdapterConnection. *)
From Verif Require Import PyBase PyDict Digits JsonModel MsgBase MsgTables MsgModel.
Local Open Scope N_scope.

(** * Python bytes primitives *)

(** str.encode(): UTF-8, UnicodeEncodeError (a ValueError) on lone surrogates *)
Definition utf8_enc1 (c : N) : res (list N) :=
  if c <? 128 then Ok [c]
  else if c <? 2048 then Ok [192 + c / 64; 128 + c mod 64]
  else if (55296 <=? c) && (c <? 57344) then Err ValueError
  else if c <? 65536 then Ok [224 + c / 4096; 128 + c / 64 mod 64; 128 + c mod 64]
  else Ok [240 + c / 262144; 128 + c / 4096 mod 64; 128 + c / 64 mod 64; 128 + c mod 64].
Definition utf8_encode (t : pystr) : res bytes := do l <- mapM utf8_enc1 t; Ok (concat l).

(** bytearray.decode(): strict UTF-8, UnicodeDecodeError (a ValueError) otherwise.
    [f] bounds the number of code points by the length of the input. *)
Definition cont (b : N) : bool := (128 <=? b) && (b <? 192).
Fixpoint utf8_dec (f : nat) (l : bytes) : res pystr :=
  match l with
  | [] => Ok []
  | a :: l1 =>
    match f with
    | O => Err EFuel
    | S f' =>
      if a <? 128 then do r <- utf8_dec f' l1; Ok (a :: r)
      else if a <? 194 then Err ValueError
      else
        match l1 with
        | [] => Err ValueError
        | b :: l2 =>
          if negb (cont b) then Err ValueError
          else if a <? 224 then do r <- utf8_dec f' l2; Ok (((a - 192) * 64 + (b - 128)) :: r)
          else
            match l2 with
            | [] => Err ValueError
            | c :: l3 =>
              if negb (cont c) then Err ValueError
              else if a <? 240 then
                let p := (a - 224) * 4096 + (b - 128) * 64 + (c - 128) in
                if (p <? 2048) || ((55296 <=? p) && (p <? 57344)) then Err ValueError
                else do r <- utf8_dec f' l3; Ok (p :: r)
              else if a <? 245 then
                match l3 with
                | [] => Err ValueError
                | d :: l4 =>
                  if negb (cont d) then Err ValueError
                  else
                    let p := (a - 240) * 262144 + (b - 128) * 4096 + (c - 128) * 64 + (d - 128) in
                    if (p <? 65536) || (1114112 <=? p) then Err ValueError
                    else do r <- utf8_dec f' l4; Ok (p :: r)
                end
              else Err ValueError
            end
        end
    end
  end.
Definition utf8_decode (l : bytes) : res pystr := utf8_dec (length l) l.

(** first occurrence of [sep] in [l]: the parts before and after it (bytes.find and slicing) *)
Fixpoint find_sub (sep l : list N) : option (list N * list N) :=
  if startswith l sep then Some ([], skipn (length sep) l)
  else match l with
       | [] => None
       | c :: r => match find_sub sep r with Some (a, b) => Some (c :: a, b) | None => None end
       end.
(** l.split(sep, maxsplit): [f] is the number of splits still allowed *)
Fixpoint split_max (f : nat) (sep l : list N) : list (list N) :=
  match f with
  | O => [l]
  | S f' => match find_sub sep l with Some (a, b) => a :: split_max f' sep b | None => [l] end
  end.
(** l.split(sep) without a limit; at most [length l] splits are possible for a non-empty separator *)
Definition split_all (sep l : list N) : list (list N) := split_max (length l) sep l.

(** int(bytes): surrounding ASCII whitespace, one sign, decimal digits with single underscores between digits *)
Definition is_bspace (c : N) : bool := (c =? 32) || ((9 <=? c) && (c <=? 13)).
Fixpoint strip_l (l : list N) : list N := match l with c :: r => if is_bspace c then strip_l r else l | [] => [] end.
Definition strip_ws (l : list N) : list N := rev (strip_l (rev (strip_l l))).
(** digits with optional single underscores between two digits; [prev] tells whether the previous character was a digit *)
Fixpoint int_digits (prev : bool) (acc : N) (l : list N) : option N :=
  match l with
  | [] => if prev then Some acc else None
  | c :: r =>
    if is_digit c then int_digits true (acc * 10 + (c - 48)) r
    else if (c =? 95) && prev then match r with [] => None | _ => int_digits false acc r end
    else None
  end.
Definition py_int (l : list N) : res Z :=
  let t := strip_ws l in
  let '(neg, d) := match t with
                   | c :: r => if c =? 45 then (true, r) else if c =? 43 then (false, r) else (false, t)
                   | [] => (false, []) end in
  match int_digits false 0 d with
  | Some n => Ok (if neg then (- Z.of_N n)%Z else Z.of_N n)
  | None => Err ValueError
  end.

(** * The connection object (dap/_adapter.py:11-28) *)
Record conn := mkConn { out : bytes; inb : bytes; seq_in : Z; seq_out : Z }.
Definition new_conn : conn := mkConn [] [] 1 1.

Definition crlf : list N := [13; 10].
Definition crlf2 : list N := [13; 10; 13; 10].
Definition content_length_name : list N := s "Content-Length".

(** dap/_adapter.py:30-41 data_to_send *)
Definition data_to_send (c : conn) (n : Z) : bytes * conn :=
  let len := Z.of_nat (length (out c)) in
  let n := if Z.eqb n (-1) then len else n in
  let n := Z.min n len in
  (slice_to (out c) n, mkConn (slice_from (out c) n) (inb c) (seq_in c) (seq_out c)).

(** dap/_adapter.py:43-47 receive_data *)
Definition receive_data (c : conn) (data : bytes) : conn := mkConn (out c) (inb c ++ data) (seq_in c) (seq_out c).

(** dap/_adapter.py:54-55: dict(h.split(b": ", 2) for h in raw_headers.split(b"\r\n")); an entry that does not
    split into exactly two parts raises ValueError *)
Definition header_pair (h : bytes) : res (bytes * bytes) :=
  match split_max 2 (s ": ") h with
  | [k; v] => Ok (k, v)
  | _ => Err ValueError
  end.
Definition parse_headers (raw : bytes) : res (list (bytes * bytes)) :=
  do l <- mapM header_pair (split_all crlf raw);
  Ok (fold_left (fun d kv => dset d (fst kv) (snd kv)) l []).
(** dap/_adapter.py:54-59 *)
Definition content_length (raw : bytes) : res Z :=
  do h <- parse_headers raw;
  match dget h content_length_name with
  | None => Err ValueError
  | Some v => py_int v
  end.

(** expected_seq_no_in != msg.seq (dap/_adapter.py:71); True == 1 in Python *)
Definition seq_eqb (n : Z) (v : pval) : bool :=
  match v with
  | PInt z => Z.eqb n z
  | PBool b => Z.eqb n (if b then 1 else 0)
  | _ => false
  end.
Definition get_attr (v : pval) (f : pystr) : res pval :=
  match v with
  | PObj _ attrs => match dget attrs f with Some x => Ok x | None => Err AttributeError end
  | _ => Err AttributeError
  end.

(** dap/_adapter.py:68-69 *)
Definition decode_body (raw : bytes) : res pval :=
  do t <- utf8_decode raw; do j <- loads t; unpack_msg j.

(** dap/_adapter.py:49-74 next_message *)
Definition next_message (c : conn) : res (option pval) * conn :=
  match find_sub crlf2 (inb c) with
  | None => (Ok None, c)
  | Some (raw_headers, _) =>
    match content_length raw_headers with
    | Err e => (Err e, c)
    | Ok len =>
      let hi := (Z.of_nat (length raw_headers) + 4)%Z in
      if (Z.of_nat (length (inb c)) - hi <? len)%Z then (Ok None, c)
      else
        let raw := slice (inb c) hi (hi + len) in
        let c1 := mkConn (out c) (slice_from (inb c) (hi + len)) (seq_in c) (seq_out c) in
        match decode_body raw with
        | Err e => (Err e, c1)
        | Ok msg =>
          let c2 := mkConn (out c1) (inb c1) (seq_in c1 + 1) (seq_out c1) in
          match get_attr msg (s "seq") with
          | Err e => (Err e, c2)
          | Ok q => if seq_eqb (seq_in c) q then (Ok (Some msg), c2) else (Err ValueError, c2)
          end
        end
    end
  end.

(** msg.seq = n *)
Definition set_seq (v : pval) (n : Z) : pval :=
  match v with PObj c attrs => PObj c (dset attrs (s "seq") (PInt n)) | _ => v end.

(** dap/_adapter.py:82-85: pack, json.dumps, frame.  The number of characters is used as the length. *)
Definition frame_of (v : pval) : res bytes :=
  do j <- enc v;
  let text := dumps j in
  utf8_encode (s "Content-Length: " ++ digits (N.of_nat (length text)) ++ crlf2 ++ text).

(** dap/_adapter.py:76-87 queue_msg; returns also the message object, whose seq was set *)
Definition queue_msg (c : conn) (v : pval) : res Z * conn :=
  let n := seq_out c in
  let c1 := mkConn (out c) (inb c) (seq_in c) (seq_out c + 1) in
  match frame_of (set_seq v n) with
  | Err e => (Err e, c1)
  | Ok fr => (Ok n, mkConn (out c1 ++ fr) (inb c1) (seq_in c1) (seq_out c1))
  end.

(** The reading loop of the users of the class, e.g. _debug_adapter.py:283-289 (DAServer.start):
    receive_data, then next_message until None.  [f] bounds the loop; the first exception ends it. *)
Fixpoint drain (f : nat) (c : conn) : res (list pval) * conn :=
  match f with
  | O => (Err EFuel, c)
  | S f' =>
    match next_message c with
    | (Err e, c1) => (Err e, c1)
    | (Ok None, c1) => (Ok [], c1)
    | (Ok (Some m), c1) =>
      match drain f' c1 with
      | (Ok l, c2) => (Ok (m :: l), c2)
      | (Err e, c2) => (Err e, c2)
      end
    end
  end.
Definition feed_chunk (c : conn) (data : bytes) : res (list pval) * conn :=
  let c1 := receive_data c data in drain (S (length (inb c1))) c1.
Fixpoint feed (c : conn) (chunks : list bytes) : res (list pval) * conn :=
  match chunks with
  | [] => (Ok [], c)
  | d :: r =>
    match feed_chunk c d with
    | (Err e, c1) => (Err e, c1)
    | (Ok l, c1) => match feed c1 r with (Ok l2, c2) => (Ok (l ++ l2), c2) | (Err e, c2) => (Err e, c2) end
    end
  end.
