(** Specification vocabulary: the header block of a message and the length it declares. *)
From Verif Require Import PyBase IntSpec.
Local Open Scope N_scope.
Definition occurs (sep l : list N) : Prop := exists a b, l = a ++ sep ++ b.
(** [l] is [hdr], [sep], [rest], and this is the first [sep] in it *)
Definition first_at (sep l hdr rest : list N) : Prop := l = hdr ++ sep ++ rest /\ forall a b, l = a ++ sep ++ b -> (length hdr <= length a)%nat.
Fixpoint join (sep : list N) (ls : list (list N)) : list N :=
  match ls with [] => [] | [x] => x | x :: r => x ++ sep ++ join sep r end.
(** The block consists of the lines NAME: VALUE for these pairs. *)
Definition fields (hdr : list N) (kvs : list (list N * list N)) : Prop :=
  kvs <> [] /\ hdr = join [13; 10] (map (fun kv => fst kv ++ s ": " ++ snd kv) kvs) /\
  forall k v, In (k, v) kvs -> ~ occurs [13; 10] (k ++ s ": " ++ v) /\ ~ occurs (s ": ") k /\ ~ occurs (s ": ") v.
(** Its last Content-Length line declares [z] bytes. *)
Definition declares_length (hdr : list N) (z : Z) : Prop :=
  exists pre v post, fields hdr (pre ++ (s "Content-Length", v) :: post) /\ ~ In (s "Content-Length") (map fst post) /\ int_literal v z.
