(** What C49 says about the characters of an address, in its own words. *)
From Verif Require Import PyBase.
Set Implicit Arguments.
Local Open Scope N_scope.

Definition clean (l : pystr) : Prop := forall c, In c l -> ~ In c [9; 13; 10; 63; 35].
Definition no (c : N) (l : pystr) : Prop := ~ In c l.
(** 0-9, A-Z, a-z *)
Definition digit (c : N) : bool := (48 <=? c) && (c <=? 57).
Definition capital (c : N) : bool := (65 <=? c) && (c <=? 90).
Definition letter (c : N) : bool := capital c || ((97 <=? c) && (c <=? 122)).
(** the text in small letters *)
Definition small (l : pystr) : pystr := map (fun c => if capital c then c + 32 else c) l.
(** the number a text of digits stands for *)
Definition number (l : pystr) : N := fold_left (fun a d => a * 10 + (d - 48)) l 0.
Definition plain_text (l : pystr) : Prop := forallb (fun c => c <? 128) l = true.
(** A URL scheme: a letter, then letters, digits and + - . *)
Definition is_scheme (sch : pystr) : Prop :=
  match sch with c :: _ => letter c = true | [] => False end /\
  forallb (fun c => letter c || digit c || mem c (s "+-.")) sch = true.
(** Dotted IPv4 text; IPv6 text with an optional zone, as the socket reports them. *)
Definition host4 (h : pystr) : Prop := h <> [] /\ forallb (fun c => digit c || (c =? 46)) h = true.
Definition zone_char (c : N) : bool := letter c || digit c || mem c (s "._-").
Definition host6 (h : pystr) : Prop := exists a z, h = a ++ z /\ a <> [] /\ forallb (fun c => digit c || ((97 <=? c) && (c <=? 102)) || mem c (s ":.")) a = true /\
  match z with [] => True | c :: z => c = 37 /\ forallb zone_char z = true end.
(** What may stand between // and the end of the host and port: printable ASCII but / ? # @ *)
Definition netloc_char (c : N) : bool := (32 <? c) && (c <? 128) && negb (mem c (s "/?#@")).
(** A name inside a directory. *)
Definition inside (dir name : pystr) : pystr := if eqb (last dir 0) 47 then dir ++ name else dir ++ [47] ++ name.
