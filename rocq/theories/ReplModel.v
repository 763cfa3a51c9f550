(** The debug console: plugin_utils/_repl_util.py with the parts of the standard library
    it uses (shlex.split and argparse's parse_known_args for this parser). *)
From Verif Require Import PyBase PyDict DbgTypes AdapterModel StratModel.
Set Implicit Arguments.
Local Open Scope N_scope.

(** * shlex.split(text): posix=True, whitespace_split, no comments, no punctuation *)
(** shlex.whitespace = ' \t\r\n' *)
Definition sh_space (c : N) : bool := (c =? 32) || (c =? 9) || (c =? 13) || (c =? 10).
(** States of shlex.read_token: ' ', 'a', inside the quote q, after the escape character
    (with the state to return to: None is 'a', Some q is the quote q). *)
Inductive lst := LSpace | LWord | LQuote (q : N) | LEsc (back : option N).
(** [tok]: the current token, [quoted]: the local of the same name; tokens are returned as
    by list(lex). *)
Fixpoint shlex (l : pystr) (st : lst) (quoted : bool) (tok : pystr) : res (list pystr) :=
  match l with
  | [] =>
    match st with
    | LSpace | LWord => if negb quoted && eqb tok [] then Ok [] else Ok [tok]
    | LQuote _ => Err ValueError   (* No closing quotation *)
    | LEsc _ => Err ValueError     (* No escaped character *)
    end
  | c :: r =>
    match st with
    | LSpace =>
      if sh_space c then
        if negb (eqb tok []) || quoted then bind (shlex r LSpace false []) (fun x => Ok (tok :: x)) else shlex r LSpace quoted tok
      else if c =? 92 then shlex r (LEsc None) quoted tok
      else if (c =? 39) || (c =? 34) then shlex r (LQuote c) quoted tok
      else shlex r LWord quoted [c]
    | LWord =>
      if sh_space c then
        if negb (eqb tok []) || quoted then bind (shlex r LSpace false []) (fun x => Ok (tok :: x)) else shlex r LSpace quoted tok
      else if (c =? 39) || (c =? 34) then shlex r (LQuote c) quoted tok
      else if c =? 92 then shlex r (LEsc None) quoted tok
      else shlex r LWord quoted (tok ++ [c])
    | LQuote q =>
      if c =? q then shlex r LWord true tok
      else if (c =? 92) && (q =? 34) then shlex r (LEsc (Some q)) true tok
      else shlex r (LQuote q) true (tok ++ [c])
    | LEsc None => shlex r LWord quoted (tok ++ [c])
    | LEsc (Some q) =>
      shlex r (LQuote q) quoted (tok ++ (if negb (c =? 92) && negb (c =? q) then [92] else []) ++ [c])
    end
  end.
Definition shlex_split (l : pystr) : res (list pystr) := shlex l LSpace false [].

(** * argparse for this parser *)
(** str.partition('=')[0] *)
Fixpoint before_eq (l : pystr) : pystr := match l with [] => [] | c :: r => if c =? 61 then [] else c :: before_eq r end.
(** _parse_optional finds the help action: exactly -h/--help, "-h" with more text, or an
    abbreviation of --help, with or without "=value". *)
Definition is_help (t : pystr) : bool :=
  match t with
  | a :: b :: r => (a =? 45) && (if b =? 45 then startswith (s "help") (before_eq r) else b =? 104)
  | _ => false
  end.
Definition has_space (t : pystr) : bool := mem 32 t.
Inductive acls := KArg | KHelp | KUnknown.
Section Parse.
(** argparse._negative_number_matcher (its pattern differs between Python versions) *)
Variable neg_number : pystr -> bool.
(** whether argparse drops a "--" in front of the command (since Python 3.12.5) *)
Variable drops_dd : bool.
(** error and help texts *)
Variable message : list pystr -> pystr.
(** ArgumentParser._parse_optional ("--" itself is treated by the callers) *)
Definition classify (t : pystr) : acls :=
  match t with
  | [] => KArg
  | c :: r =>
    if negb (c =? 45) then KArg
    else if eqb r [] then KArg
    else if is_help t then KHelp
    else if neg_number t then KArg
    else if has_space t then KArg
    else KUnknown
  end.
(** The command word and what follows; None: error or help. *)
Fixpoint find_command (toks : list pystr) : option (pystr * list pystr) :=
  match toks with
  | [] => None
  | t :: r =>
    if eqb t (s "--") then (if drops_dd then match r with c :: r => Some (c, r) | [] => None end else None)
    else match classify t with KArg => Some (t, r) | KHelp => None | KUnknown => find_command r end
  end.
(** A sub-parser: first positional argument (None if there is none); the outer None: help. *)
Fixpoint sub_args (toks : list pystr) : option (option pystr) :=
  match toks with
  | [] => Some None
  | t :: r =>
    if eqb t (s "--") then Some (hd_error r)
    else match classify t with
         | KHelp => None
         | KUnknown => sub_args r
         | KArg => match sub_args r with None => None | Some _ => Some (Some t) end
         end
  end.
(** The four commands and their aliases, _repl_util.py:60-65 *)
Inductive rcmd := CRemove | CSetOption | CSetHostvar | CTemplate.
Definition commands : list (pystr * rcmd) :=
  [(s "remove_option", CRemove); (s "ro", CRemove); (s "set_option", CSetOption); (s "so", CSetOption);
   (s "set_hostvar", CSetHostvar); (s "sh", CSetHostvar); (s "template", CTemplate); (s "t", CTemplate)].

(** str.isspace *)
Definition py_space (c : N) : bool :=
  ((9 <=? c) && (c <=? 13)) || ((28 <=? c) && (c <=? 32)) || (c =? 133) || (c =? 160) || (c =? 5760) || ((8192 <=? c) && (c <=? 8202)) || (c =? 8232) || (c =? 8233) || (c =? 8239) || (c =? 8287) || (c =? 12288).
Fixpoint lstrip (l : pystr) : pystr := match l with c :: r => if py_space c then lstrip r else l | [] => [] end.
(** text[text.index(x) + len(x):] *)
Definition after_index (text x : pystr) : res pystr := match find_sub x text with Some (_, r) => Ok r | None => Err ValueError end.

(** _repl_util.py:45-160 parse_repl_args *)
Definition parse_repl_args (args : pystr) : res ReplCmd :=
  bind (shlex_split args) (fun toks =>
  match find_command toks with
  | None => Ok (RcText (message toks))
  | Some (command, rest) =>
    match dget commands command with
    | None => Ok (RcText (message toks))
    | Some k =>
      match sub_args rest with
      | None => Ok (RcText (message toks))
      | Some nm =>
        match k with
        | CTemplate => bind (after_index args command) (fun r => Ok (RcTemplate (lstrip r)))
        | CRemove => match nm with None => Ok (RcText (message toks)) | Some n => Ok (RcRemove n) end
        | CSetOption | CSetHostvar =>
          match nm with
          | None => Ok (RcText (message toks))
          | Some n =>
            bind (after_index args command) (fun r =>
            bind (after_index (lstrip r) n) (fun r =>
            let r := match r with c :: r' => if (c =? 34) || (c =? 39) then r' else r | [] => r end in
            Ok (match k with CSetOption => RcSetOption n (lstrip r) | _ => RcSetHostvar n (lstrip r) end)))
          end
        end
      end
    end
  end).
End Parse.
