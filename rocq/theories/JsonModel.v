(** Model of the CPython [json] module as used by ansibug
    (src/ansibug/dap/_adapter.py:66 [json.loads], :82 [json.dumps], default arguments;
    also src/ansibug/_debug_adapter.py and _debuggee.py where small records are stored).
    This is CPython library behaviour, not ansibug code: Lib/json/encoder.py
    (py_encode_basestring_ascii, _iterencode) and Modules/_json.c (scanner).
    Simplifications: no floats (a float literal in the text gives [EUnmodelled]; NaN and
    Infinity likewise), no interpreter recursion limit, no 4300 digit int/str limit. *)
From Verif Require Import PyBase PyDict Digits.
Local Open Scope N_scope.

Inductive json :=
| JNull
| JBool (b : bool)
| JInt (z : Z)
| JStr (t : pystr)
| JArr (l : list json)
| JObj (d : list (pystr * json)).

(** * Encoder: json.dumps(v) with default separators and ensure_ascii *)

(** One character of a string: py_encode_basestring_ascii. *)
Definition esc_char (c : N) : list N :=
  if c =? 34 then s "\""" else
  if c =? 92 then s "\\" else
  if c =? 10 then s "\n" else
  if c =? 13 then s "\r" else
  if c =? 9 then s "\t" else
  if c =? 12 then s "\f" else
  if c =? 8 then s "\b" else
  if (32 <=? c) && (c <=? 126) then [c] else
  if c <? 65536 then s "\u" ++ hex4s c else
  let n := c - 65536 in
  s "\u" ++ hex4s (55296 + n / 1024) ++ s "\u" ++ hex4s (56320 + n mod 1024).

Definition dumps_str (t : pystr) : list N := [34] ++ flat_map esc_char t ++ [34].

(** [sep.join(l)] *)
Fixpoint join (sep : list N) (l : list (list N)) : list N :=
  match l with
  | [] => []
  | [x] => x
  | x :: r => x ++ sep ++ join sep r
  end.

Fixpoint dumps (v : json) : list N :=
  match v with
  | JNull => s "null"
  | JBool true => s "true"
  | JBool false => s "false"
  | JInt z => zdigits z
  | JStr t => dumps_str t
  | JArr l => s "[" ++ join (s ", ") (map dumps l) ++ s "]"
  | JObj d => s "{" ++ join (s ", ") (map (fun kv => dumps_str (fst kv) ++ s ": " ++ dumps (snd kv)) d) ++ s "}"
  end.

(** * Decoder: json.loads(text) *)

Definition is_ws (c : N) : bool := (c =? 32) || (c =? 9) || (c =? 10) || (c =? 13).
Fixpoint skip_ws (l : list N) : list N :=
  match l with
  | c :: r => if is_ws c then skip_ws r else l
  | [] => []
  end.

Definition is_high (u : N) : bool := (55296 <=? u) && (u <=? 56319).
Definition is_low (u : N) : bool := (56320 <=? u) && (u <=? 57343).

Definition consR (c : N) (r : res (list N * list N)) : res (list N * list N) :=
  match r with Ok (a, b) => Ok (c :: a, b) | Err e => Err e end.

(** single character escapes of scanstring *)
Definition unesc (e : N) : option N :=
  if e =? 34 then Some 34 else if e =? 92 then Some 92 else if e =? 47 then Some 47
  else if e =? 98 then Some 8 else if e =? 102 then Some 12 else if e =? 110 then Some 10
  else if e =? 114 then Some 13 else if e =? 116 then Some 9 else None.

(** scanstring_unicode (strict): text after the opening quote. *)
Fixpoint scan_str (l : list N) : res (list N * list N) :=
  match l with
  | [] => Err ValueError
  | c :: r =>
    if c =? 34 then Ok ([], r)
    else if c =? 92 then
      match r with
      | [] => Err ValueError
      | e :: r1 =>
        if e =? 117 then
          match r1 with
          | h1 :: h2 :: h3 :: h4 :: r2 =>
            match hex4v h1 h2 h3 h4 with
            | None => Err ValueError
            | Some u =>
              if is_high u then
                match r2 with
                | b :: u' :: g1 :: g2 :: g3 :: g4 :: r3 =>
                  if (b =? 92) && (u' =? 117) then
                    match hex4v g1 g2 g3 g4 with
                    | None => Err ValueError
                    | Some lo =>
                      if is_low lo then consR (65536 + (u - 55296) * 1024 + (lo - 56320)) (scan_str r3)
                      else consR u (scan_str r2)
                    end
                  else consR u (scan_str r2)
                | _ => consR u (scan_str r2)
                end
              else consR u (scan_str r2)
            end
          | _ => Err ValueError
          end
        else match unesc e with
             | Some x => consR x (scan_str r1)
             | None => Err ValueError
             end
      end
    else if c <? 32 then Err ValueError
    else consR c (scan_str r)
  end.

(** does a fraction or exponent follow (then the literal is a float)? *)
Definition float_tail (l : list N) : bool :=
  match l with
  | c :: r =>
    if c =? 46 then match r with d :: _ => is_digit d | [] => false end
    else if (c =? 101) || (c =? 69) then
      match r with
      | d :: r' => is_digit d || (((d =? 43) || (d =? 45)) && match r' with e :: _ => is_digit e | [] => false end)
      | [] => false
      end
    else false
  | [] => false
  end.

(** _match_number_unicode: [neg] tells whether a minus sign was consumed. *)
Definition scan_num (neg : bool) (l : list N) : res (json * list N) :=
  match l with
  | c :: r =>
    if c =? 48 then
      if float_tail r then Err EUnmodelled else Ok (JInt 0, r)
    else if is_digit c then
      let '(ds, r') := take_digits l in
      if float_tail r' then Err EUnmodelled
      else let n := Z.of_N (val_digits ds) in Ok (JInt (if neg then - n else n)%Z, r')
    else Err ValueError
  | [] => Err ValueError
  end.

(** [l = c :: r] ? *)
Definition drop1 (c : N) (l : list N) : option (list N) :=
  match l with x :: r => if x =? c then Some r else None | [] => None end.

(** scan_once_unicode / _parse_array_unicode / _parse_object_unicode. *)
Fixpoint scan_val (f : nat) (l : list N) {struct f} : res (json * list N) :=
  match f with
  | O => Err EFuel
  | S f' =>
    match l with
    | [] => Err ValueError
    | c :: r =>
      if c =? 34 then do (t, r') <- scan_str r; Ok (JStr t, r')
      else if c =? 123 then
        match drop1 125 (skip_ws r) with
        | Some r' => Ok (JObj [], r')
        | None => do (d, r') <- scan_members f' [] (skip_ws r); Ok (JObj d, r')
        end
      else if c =? 91 then
        match drop1 93 (skip_ws r) with
        | Some r' => Ok (JArr [], r')
        | None => do (d, r') <- scan_elems f' (skip_ws r); Ok (JArr d, r')
        end
      else if startswith l (s "null") then Ok (JNull, skipn 4 l)
      else if startswith l (s "true") then Ok (JBool true, skipn 4 l)
      else if startswith l (s "false") then Ok (JBool false, skipn 5 l)
      else if startswith l (s "NaN") then Err EUnmodelled
      else if startswith l (s "Infinity") then Err EUnmodelled
      else if startswith l (s "-Infinity") then Err EUnmodelled
      else if c =? 45 then scan_num true r
      else scan_num false l
    end
  end
with scan_elems (f : nat) (l : list N) {struct f} : res (list json * list N) :=
  match f with
  | O => Err EFuel
  | S f' =>
    do (v, r) <- scan_val f' l;
    match drop1 93 (skip_ws r) with
    | Some r' => Ok ([v], r')
    | None =>
      match drop1 44 (skip_ws r) with
      | Some r' => do (vs, r'') <- scan_elems f' (skip_ws r'); Ok (v :: vs, r'')
      | None => Err ValueError
      end
    end
  end
with scan_members (f : nat) (acc : list (pystr * json)) (l : list N) {struct f} : res (list (pystr * json) * list N) :=
  match f with
  | O => Err EFuel
  | S f' =>
    match drop1 34 l with
    | None => Err ValueError
    | Some r0 =>
      do (k, r) <- scan_str r0;
      match drop1 58 (skip_ws r) with
      | None => Err ValueError
      | Some r1 =>
        do (v, r2) <- scan_val f' (skip_ws r1);
        match drop1 125 (skip_ws r2) with
        | Some r' => Ok (dset acc k v, r')
        | None =>
          match drop1 44 (skip_ws r2) with
          | Some r' => scan_members f' (dset acc k v) (skip_ws r')
          | None => Err ValueError
          end
        end
      end
    end
  end.

(** json.loads(text): a leading BOM is refused, whitespace around the value allowed,
    anything after it is refused. *)
Definition loads (l : list N) : res json :=
  match drop1 65279 l with
  | Some _ => Err ValueError
  | None =>
    do (v, r) <- scan_val (2 * length l + 2) (skip_ws l);
    match skip_ws r with
    | [] => Ok v
    | _ :: _ => Err ValueError
    end
  end.
