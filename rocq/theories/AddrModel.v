(** Address strings: urllib.parse.urlsplit as far as it is used (CPython 3.11),
    _socket_helper.py:25-96 parse_addr_string, _mp_queue.py:62-74 MPQueue.address. *)
From Verif Require Import PyBase PyDict Digits.
Set Implicit Arguments.
Local Open Scope N_scope.

(** * Python *)
Fixpoint drop_while (f : N -> bool) (l : pystr) : pystr := match l with c :: r => if f c then drop_while f r else l | [] => [] end.
(** str.partition: the text before the first [c], whether there is one, the text after it *)
Fixpoint partition1 (c : N) (l : pystr) : pystr * bool * pystr :=
  match l with
  | [] => ([], false, [])
  | x :: r => if x =? c then ([], true, r) else let '(a, b, d) := partition1 c r in (x :: a, b, d)
  end.
(** str.rpartition(c)[2]: the text after the last [c], everything if there is none *)
Fixpoint after_last (c : N) (l : pystr) : pystr :=
  match l with
  | [] => []
  | x :: r => if mem c r then after_last c r else if x =? c then r else l
  end.
Definition has (c : N) (l : pystr) : bool := mem c l.
Definition is_upper (c : N) : bool := (65 <=? c) && (c <=? 90).
Definition is_alpha (c : N) : bool := is_upper c || ((97 <=? c) && (c <=? 122)).
Definition lower1 (c : N) : N := if is_upper c then c + 32 else c.
Definition is_ascii (l : pystr) : bool := forallb (fun c => c <? 128) l.
(** urllib.parse.scheme_chars *)
Definition scheme_char (c : N) : bool := is_alpha c || is_digit c || mem c (s "+-.").
(** urllib.parse._splitnetloc *)
Fixpoint split_netloc (l : pystr) : pystr * pystr :=
  match l with
  | [] => ([], [])
  | c :: r => if mem c (s "/?#") then ([], l) else let '(a, b) := split_netloc r in (c :: a, b)
  end.

Inductive addr := ATcp (host : pystr) (port : N) | AUds (path : pystr).
Section Addr.
(** str.lower() of text outside ASCII, the NFKC test of _checknetloc and the test of
    bracketed hosts (differs between Python releases) are parameters. *)
Variable lower_other : pystr -> pystr.
Variable nfkc_ok : pystr -> bool.
Variable bracket_ok : pystr -> bool.
Definition lower (l : pystr) : pystr := if is_ascii l then map lower1 l else lower_other l.

(** urlsplit: scheme, netloc, path *)
Definition urlsplit (value : pystr) : res (pystr * pystr * pystr) :=
  let url := filter (fun c => negb (mem c [9; 13; 10])) (drop_while (fun c => c <=? 32) value) in
  let '(head, found, rest) := partition1 58 url in
  let '(scheme, url) :=
    match head with
    | c :: _ => if found && is_alpha c && forallb scheme_char head then (map lower1 head, rest) else ([], url)
    | [] => ([], url)
    end in
  bind (match url with
        | 47 :: 47 :: r =>
          let '(netloc, rest) := split_netloc r in
          if negb (Bool.eqb (has 91 netloc) (has 93 netloc)) then Err ValueError
          else if has 91 netloc && negb (bracket_ok netloc) then Err ValueError
          else Ok (netloc, rest)
        | _ => Ok ([], url)
        end) (fun p => let '(netloc, url) := p in
  let url := fst (fst (partition1 35 url)) in
  let path := fst (fst (partition1 63 url)) in
  if is_ascii netloc || nfkc_ok netloc then Ok (scheme, netloc, path) else Err ValueError).
(** _hostinfo: hostname and port texts *)
Definition hostinfo (netloc : pystr) : pystr * pystr :=
  let h := after_last 64 netloc in
  let '(_, br, bracketed) := partition1 91 h in
  if br then let '(host, _, r) := partition1 93 bracketed in let '(_, _, port) := partition1 58 r in (host, port)
  else let '(host, _, port) := partition1 58 h in (host, port).
(** .port; [None]: no port *)
Definition url_port (netloc : pystr) : res (option N) :=
  match snd (hostinfo netloc) with
  | [] => Ok None
  | p => if forallb is_digit p then (if val_digits p <=? 65535 then Ok (Some (val_digits p)) else Err ValueError) else Err ValueError
  end.
(** .hostname or "" *)
Definition url_host (netloc : pystr) : pystr :=
  let '(h, pc, zone) := partition1 37 (fst (hostinfo netloc)) in lower h ++ (if pc then [37] else []) ++ zone.

(** os.path.join(tmp, name) for a name without a slash *)
Definition join (tmp name : pystr) : pystr := if eqb (last tmp 0) 47 then tmp ++ name else tmp ++ [47] ++ name.
(** _socket_helper.py:68-96 parse_addr_string; [tmp]: tempfile.gettempdir(); [uuid]: the fresh name. *)
Definition parse_addr (tmp uuid value : pystr) : res addr :=
  bind (urlsplit value) (fun p => let '(scheme, netloc, path) := p in
  if eqb scheme (s "tcp") then
    match netloc with
    | [] => Ok (ATcp [] 0)
    | _ => bind (url_port netloc) (fun port => match port with Some n => Ok (ATcp (url_host netloc) n) | None => Err ValueError end)
    end
  else if eqb scheme (s "uds") then
    match netloc, path with
    | _ :: _, _ :: _ => Err ValueError
    | _ :: _, [] => Ok (AUds (join tmp netloc))
    | [], _ :: _ => Ok (AUds path)
    | [], [] => Ok (AUds (join tmp (s "ansibug-dap-" ++ uuid)))
    end
  else Err ValueError).
End Addr.

(** What getsockname() says of a bound socket. *)
Inductive sockname := SUnix (path : pystr) | SInet (host : pystr) (port : N) | SInet6 (host : pystr) (port : N).
(** _mp_queue.py:62-74 MPQueue.address *)
Definition address (a : sockname) : pystr :=
  match a with
  | SUnix p => s "uds://" ++ p
  | SInet h p => s "tcp://" ++ h ++ [58] ++ digits p
  | SInet6 h p => s "tcp://[" ++ h ++ s "]:" ++ digits p
  end.
