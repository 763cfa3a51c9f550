(** The launch script (_debug_adapter.py:466-534): shlex.quote, base64 and the script
    text; and the part of the POSIX shell that the script exercises.  Whatever the shell
    model does not cover is an error ([EUnmodelled]), never a guess. *)
From Verif Require Import PyBase PyDict JsonModel AdapterModel.
Set Implicit Arguments.
Local Open Scope N_scope.

(** * Python *)
Definition between (a b c : N) : bool := (a <=? c) && (c <=? b).
(** shlex._find_unsafe, [^\w@%+=:,./-] with re.ASCII: the characters that are safe. *)
Definition sh_safe (c : N) : bool :=
  between 48 57 c || between 65 90 c || between 97 122 c || mem c (s "_@%+=:,./-").
(** s.replace("'", "'\"'\"'") *)
Definition sq_escape (x : pystr) : pystr := flat_map (fun c => if c =? 39 then s "'""'""'" else [c]) x.
(** shlex.quote *)
Definition quote (x : pystr) : pystr :=
  match x with
  | [] => s "''"
  | _ => if forallb sh_safe x then x else s "'" ++ sq_escape x ++ s "'"
  end.
(** " ".join(l) *)
Fixpoint join_sp (l : list pystr) : pystr :=
  match l with [] => [] | [x] => x | x :: l => x ++ [32] ++ join_sp l end.

(** base64.b64encode *)
Definition b64_alphabet : pystr := s "ABCDEFGHIJKLMNOPQRSTUVWXYZabcdefghijklmnopqrstuvwxyz0123456789+/".
Definition b64c (n : N) : N := nth (N.to_nat n) b64_alphabet 0.
Fixpoint b64encode (l : bytes) : pystr :=
  match l with
  | [] => []
  | [a] => [b64c (a / 4); b64c (a mod 4 * 16); 61; 61]
  | [a; b] => [b64c (a / 4); b64c (a mod 4 * 16 + b / 16); b64c (b mod 16 * 4); 61]
  | a :: b :: c :: r => b64c (a / 4) :: b64c (a mod 4 * 16 + b / 16) :: b64c (b mod 16 * 4 + c / 64) :: b64c (c mod 64) :: b64encode r
  end.

(** The text of the script, 494-526. *)
Definition script_py_before : pystr := s "
import base64
import socket

n = base64.b64decode('".
Definition script_py_after : pystr := s "').decode()
try:
    with socket.socket(socket.AF_UNIX, socket.SOCK_STREAM) as s:
        s.connect(n)
except OSError:
    pass
".
Definition launch_script (sock_name python ansibug_args : pystr) : pystr :=
  s "#!/bin/sh
set -e

cleanup () {
    SN=""" ++ sock_name ++ s """
    " ++ python ++ s " -c """ ++ script_py_before ++ s "${SN}" ++ script_py_after ++ s """
}

trap cleanup EXIT INT ABRT KILL TERM

rm -f ""$0""
" ++ python ++ [32] ++ ansibug_args ++ s " ""$@""
".
(** 473-488 ansibug_args *)
Definition ansibug_args (addr : pystr) (log : option (pystr * pystr)) : list pystr :=
  [s "-m"; s "ansibug"; s "connect"; s "--addr"; addr] ++
  match log with Some (file, level) => [s "--log-file"; file; s "--log-level"; level] | None => [] end.
(** 466-526, the text that is written; [sock]: the path of the launch queue's socket
    (address[6:]); str.encode() raises for lone surrogates. *)
Definition make_script (executable addr sock : pystr) (log : option (pystr * pystr)) : res pystr :=
  bind (utf8_encode sock) (fun b => Ok (launch_script (b64encode b) (quote executable) (join_sp (map quote (ansibug_args addr log))))).

(** * The shell *)
(** Parts of a word: a character outside / inside quotes, a parameter inside double quotes. *)
Inductive frag := FU (c : N) | FQ (c : N) | FP (name : pystr).
Inductive tok := TW (w : list frag) | TNL | TOp (c : N).
Inductive lmode :=
| LU (cur : option (list frag)) | LB (cur : option (list frag)) | LSQ (w : list frag) | LDQ (w : list frag) | LDB (w : list frag)
| LDD (w : list frag) | LDN (w : list frag) (n : pystr) | LDR (w : list frag) (n : pystr) | LC.
Definition lw (cur : option (list frag)) : list frag := match cur with Some w => w | None => [] end.
Definition flush (cur : option (list frag)) (out : list tok) : list tok := match cur with Some w => out ++ [TW w] | None => out end.
Definition name_start (c : N) : bool := between 65 90 c || between 97 122 c || (c =? 95).
Definition name_char (c : N) : bool := name_start c || between 48 57 c.

(** Inside double quotes (POSIX 2.2.3). *)
Definition dq_step (w : list frag) (c : N) : res lmode :=
  if c =? 34 then Ok (LU (Some w))
  else if c =? 92 then Ok (LDB w)
  else if c =? 36 then Ok (LDD w)
  else if (c =? 96) || (c =? 0) then Err EUnmodelled
  else Ok (LDQ (w ++ [FQ c])).
(** One character of token recognition (POSIX 2.3) and quoting (2.2). *)
Definition lstep (m : lmode) (out : list tok) (c : N) : res (lmode * list tok) :=
  match m with
  | LU cur =>
    if c =? 39 then Ok (LSQ (lw cur), out)
    else if c =? 34 then Ok (LDQ (lw cur), out)
    else if c =? 92 then Ok (LB cur, out)
    else if (c =? 32) || (c =? 9) then Ok (LU None, flush cur out)
    else if c =? 10 then Ok (LU None, flush cur out ++ [TNL])
    else if mem c (s "();&|<>") then Ok (LU None, flush cur out ++ [TOp c])
    else if (c =? 36) || (c =? 96) || (c =? 0) then Err EUnmodelled
    else if (c =? 35) && match cur with None => true | _ => false end then Ok (LC, out)
    else Ok (LU (Some (lw cur ++ [FU c])), out)
  | LB cur => if c =? 10 then Ok (LU cur, out) else if c =? 0 then Err EUnmodelled else Ok (LU (Some (lw cur ++ [FQ c])), out)
  | LSQ w => if c =? 39 then Ok (LU (Some w), out) else if c =? 0 then Err EUnmodelled else Ok (LSQ (w ++ [FQ c]), out)
  | LDQ w => bind (dq_step w c) (fun m => Ok (m, out))
  | LDB w =>
    if c =? 10 then Ok (LDQ w, out)
    else if mem c (s "$`""\") then Ok (LDQ (w ++ [FQ c]), out)
    else if c =? 0 then Err EUnmodelled
    else Ok (LDQ (w ++ [FQ 92; FQ c]), out)
  | LDD w =>
    if c =? 123 then Ok (LDR w [], out)
    else if between 48 57 c || (c =? 64) then Ok (LDQ (w ++ [FP [c]]), out)
    else if name_start c then Ok (LDN w [c], out)
    else Err EUnmodelled
  | LDN w n => if name_char c then Ok (LDN w (n ++ [c]), out) else bind (dq_step (w ++ [FP n]) c) (fun m => Ok (m, out))
  | LDR w n => if name_char c then Ok (LDR w (n ++ [c]), out) else if (c =? 125) && negb (eqb n []) then Ok (LDQ (w ++ [FP n]), out) else Err EUnmodelled
  | LC => if c =? 10 then Ok (LU None, out ++ [TNL]) else Ok (LC, out)
  end.
Fixpoint lfold (m : lmode) (out : list tok) (l : list N) : res (lmode * list tok) :=
  match l with [] => Ok (m, out) | c :: l => match lstep m out c with Ok (m, out) => lfold m out l | Err e => Err e end end.
Definition lex (l : list N) : res (list tok) :=
  bind (lfold (LU None) [] l) (fun p =>
  match p with (LU cur, out) => Ok (flush cur out) | (LC, out) => Ok out | _ => Err ValueError end).

(** Commands are separated by newlines (and ;). *)
Fixpoint split_lines (l : list tok) (cur : list tok) : list (list tok) :=
  match l with
  | [] => [cur]
  | TNL :: l => cur :: split_lines l []
  | TOp c :: l => if c =? 59 then cur :: split_lines l [] else split_lines l (cur ++ [TOp c])
  | t :: l => split_lines l (cur ++ [t])
  end.
Definition unq (w : list frag) : option pystr :=
  fold_right (fun f r => match f, r with FU c, Some x => Some (c :: x) | _, _ => None end) (Some []) w.
Inductive cmd := CSimple (ws : list (list frag)) | CFun (name : pystr) (body : list (list (list frag))).
Definition words_of (l : list tok) : res (list (list frag)) := mapM (fun t => match t with TW w => Ok w | _ => Err EUnmodelled end) l.
Definition reserved : list pystr :=
  map s ["!"; "{"; "}"; "case"; "do"; "done"; "elif"; "else"; "esac"; "fi"; "for"; "if"; "in"; "then"; "until"; "while"; "function"; "select"; "time"; "[["; "]]"; "coproc"]%string.
Definition is_reserved (w : list frag) : bool := match unq w with Some x => mem x reserved | None => false end.
(** "name ( ) {" opens a function, "}" on a line of its own closes it; other compound
    commands are not covered. *)
Definition fun_open (l : list tok) : option pystr :=
  match l with
  | [TW n; TOp a; TOp b; TW o] =>
    if (a =? 40) && (b =? 41) && eqb (unq o) (Some (s "{")) then unq n else None
  | _ => None
  end.
Definition fun_close (l : list tok) : bool := match l with [TW o] => eqb (unq o) (Some (s "}")) | _ => false end.
Definition simple_of (l : list tok) : res (list (list frag)) :=
  bind (words_of l) (fun ws => match ws with w :: _ => if is_reserved w then Err EUnmodelled else Ok ws | [] => Ok ws end).
Fixpoint parse (lines : list (list tok)) (open : option (pystr * list (list (list frag)))) : res (list cmd) :=
  match lines with
  | [] => match open with None => Ok [] | Some _ => Err ValueError end
  | [] :: r => parse r open
  | l :: r =>
    match open with
    | Some (n, body) =>
      if fun_close l then bind (parse r None) (fun cs => Ok (CFun n body :: cs))
      else bind (simple_of l) (fun ws => parse r (Some (n, body ++ [ws])))
    | None =>
      match fun_open l with
      | Some n => parse r (Some (n, []))
      | None => bind (simple_of l) (fun ws => bind (parse r None) (fun cs => Ok (CSimple ws :: cs)))
      end
    end
  end.

(** Execution.  [sh_vars]: variables; [sh_funs]: functions; [sh_trap]: the EXIT trap. *)
Record Sh := mkSh { sh_vars : dict pystr pystr; sh_funs : dict pystr (list (list (list frag))); sh_trap : option pystr; sh_e : bool; sh_log : list (list pystr) }.
Section Run.
(** Does the program started with these arguments succeed? *)
Variable status : list pystr -> bool.
Variable arg0 : pystr.
Variable params : list pystr.
(** Unquoted pattern characters, ~ and braces would be expanded: not covered. *)
Definition expand_frag (vars : dict pystr pystr) (f : frag) : res pystr :=
  match f with
  | FU c => if mem c (s "*?[~{}") then Err EUnmodelled else Ok [c]
  | FQ c => Ok [c]
  | FP n => if eqb n (s "0") then Ok arg0 else match n with c :: _ => if name_start c then Ok (match dget vars n with Some v => v | None => [] end) else Err EUnmodelled | [] => Err EUnmodelled end
  end.
Definition expand (vars : dict pystr pystr) (w : list frag) : res (list pystr) :=
  match w with
  | [FP n] => if eqb n (s "@") then Ok params else bind (expand_frag vars (FP n)) (fun x => Ok [x])
  | _ => bind (mapM (expand_frag vars) w) (fun l => Ok [concat l])
  end.
(** NAME=... with NAME and = outside quotes (POSIX 2.9.1). *)
Fixpoint assign_at (w : list frag) (n : pystr) : option (pystr * list frag) :=
  match w with
  | FU c :: w => if (c =? 61) && negb (eqb n []) then Some (n, w) else if name_char c && (negb (eqb n []) || name_start c) then assign_at w (n ++ [c]) else None
  | _ => None
  end.
Fixpoint expand_all (vars : dict pystr pystr) (ws : list (list frag)) : res (list pystr) :=
  match ws with [] => Ok [] | w :: ws => bind (expand vars w) (fun x => bind (expand_all vars ws) (fun y => Ok (x ++ y))) end.
Definition builtins : list pystr :=
  map s ["."; ":"; "["; "alias"; "bg"; "break"; "cd"; "command"; "continue"; "echo"; "eval"; "exec"; "exit"; "export"; "false"; "fc"; "fg"; "getopts"; "hash"; "jobs"; "kill"; "local"; "printf"; "pwd"; "read"; "readonly"; "return"; "set"; "shift"; "source"; "test"; "times"; "trap"; "true"; "type"; "ulimit"; "umask"; "unalias"; "unset"; "wait"]%string.
(** A simple command inside a function body or at the top: an assignment, or a program.
    The second component: did it succeed? *)
Definition run_plain (st : Sh) (ws : list (list frag)) : res (Sh * bool) :=
  match ws with
  | [] => Ok (st, true)
  | w :: rest =>
    match assign_at w [] with
    | Some (n, v) =>
      match rest with
      | [] => bind (expand (sh_vars st) v) (fun x => match x with [x] => Ok (mkSh (dset (sh_vars st) n x) (sh_funs st) (sh_trap st) (sh_e st) (sh_log st), true) | _ => Err EUnmodelled end)
      | _ => Err EUnmodelled
      end
    | None =>
      bind (expand_all (sh_vars st) ws) (fun argv =>
      match argv with
      | [] => Err EUnmodelled
      | prog :: _ => if mem prog builtins then Err EUnmodelled else Ok (mkSh (sh_vars st) (sh_funs st) (sh_trap st) (sh_e st) (sh_log st ++ [argv]), status argv)
      end)
    end
  end.
Fixpoint run_body (st : Sh) (body : list (list (list frag))) : res (Sh * bool) :=
  match body with
  | [] => Ok (st, true)
  | ws :: body => bind (run_plain st ws) (fun p => let '(st, ok) := p in if negb ok && sh_e st then Ok (st, false) else run_body st body)
  end.
Definition run_cmd (st : Sh) (c : cmd) : res (Sh * bool) :=
  match c with
  | CFun n body => Ok (mkSh (sh_vars st) (dset (sh_funs st) n body) (sh_trap st) (sh_e st) (sh_log st), true)
  | CSimple ws =>
    match map unq ws with
    | [Some a; Some b] => if eqb a (s "set") && eqb b (s "-e") then Ok (mkSh (sh_vars st) (sh_funs st) (sh_trap st) true (sh_log st), true) else run_plain st ws
    | Some a :: Some f :: conds =>
      if eqb a (s "trap") then Ok (mkSh (sh_vars st) (sh_funs st) (if mem (Some (s "EXIT")) conds then Some f else sh_trap st) (sh_e st) (sh_log st), true)
      else run_plain st ws
    | _ => run_plain st ws
    end
  end.
(** Commands in order; under "set -e" a failing one ends the script. *)
Fixpoint run_cmds (st : Sh) (cs : list cmd) : res Sh :=
  match cs with
  | [] => Ok st
  | c :: cs => bind (run_cmd st c) (fun p => let '(st, ok) := p in if negb ok && sh_e st then Ok st else run_cmds st cs)
  end.
(** The whole script, then the EXIT trap, which must name a function.  Result: the
    programs started, each with its arguments.  Signals are not covered. *)
Definition sh_run (script : list N) : res (list (list pystr)) :=
  bind (lex script) (fun toks =>
  bind (parse (split_lines toks []) None) (fun cs =>
  bind (run_cmds (mkSh [] [] None false []) cs) (fun st =>
  match sh_trap st with
  | None => Ok (sh_log st)
  | Some f => match dget (sh_funs st) f with Some body => bind (run_body st body) (fun p => Ok (sh_log (fst p))) | None => Err EUnmodelled end
  end))).
End Run.
