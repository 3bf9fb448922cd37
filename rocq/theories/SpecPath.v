(** Specification: the path that a URL parser makes of the text after the origin (https://url.spec.whatwg.org/#concept-basic-url-parser,
    states "path start" and "path" for special schemes).  One point differs from the standard: the parser of the library also keeps
    drive letters outside of file URLs. *)
From Verif Require Import Base SpecUrl.
Local Open Scope byte_scope.

(** Trailing spaces and control characters are ignored. *)
Definition without_end (s u : str) : Prop :=
  exists w, s = u ++ w /\ Forall (fun c => (bN c <= 32)%N) w /\ forall p c, u = p ++ [c] -> (32 < bN c)%N.

(** So are tabs and line breaks anywhere. *)
Inductive without_breaks : str -> str -> Prop :=
| wb_nil : without_breaks [] []
| wb_break c s t : In c [x09; x0a; x0d] -> without_breaks s t -> without_breaks (c :: s) t
| wb_other c s t : ~ In c [x09; x0a; x0d] -> without_breaks s t -> without_breaks (c :: s) (c :: t).

(** The path ends at the first question mark or number sign. *)
Definition before_marks (v p : str) : Prop :=
  ~ In "?" p /\ ~ In "#" p /\ (v = p \/ exists c r, v = p ++ c :: r /\ (c = "?" \/ c = "#")).

(** Slashes and backslashes separate segments. *)
Inductive separated : str -> list str -> Prop :=
| se_last s : ~ In "/" s -> ~ In "\" s -> separated s [s]
| se_more s c r l : ~ In "/" s -> ~ In "\" s -> c = "/" \/ c = "\" -> separated r l -> separated (s ++ c :: r) (s :: l).

(** Segments that mean this or the enclosing directory, also in escaped form. *)
Definition stays (s : str) : Prop := unescaped s (B ".").
Definition ups (s : str) : Prop := unescaped s (B "..").

(** A letter with a colon or a bar. *)
Definition drive (s : str) : Prop :=
  exists a, ((65 <= bN a <= 90) \/ (97 <= bN a <= 122))%N /\ (s = [a; ":"] \/ s = [a; "|"]).

(** The directory reached by following segments from the root. *)
Inductive reached : list str -> list str -> Prop :=
| re_root : reached [] []
| re_stays l s st : reached l st -> stays s -> reached (l ++ [s]) st
| re_up l s st x : reached l (st ++ [x]) -> ups s -> ~ drive x -> reached (l ++ [s]) st
| re_drive l s st x : reached l (st ++ [x]) -> ups s -> drive x -> reached (l ++ [s]) (st ++ [x])
| re_top l s : reached l [] -> ups s -> reached (l ++ [s]) []
| re_enter l s st : reached l st -> ~ stays s -> ~ ups s -> reached (l ++ [s]) (st ++ [s]).

(** The segments of the path: those of the directory and the last one, which is empty if it only meant a directory. *)
Inductive path_segments : list str -> list str -> Prop :=
| pa_last l s st : reached l st -> ~ stays s -> ~ ups s -> path_segments (l ++ [s]) (st ++ [s])
| pa_directory l s st : reached (l ++ [s]) st -> stays s \/ ups s -> path_segments (l ++ [s]) (st ++ [[]]).

(** The segments of the path for a name. *)
Definition named_segments (name : str) (segs : list str) : Prop :=
  exists u v p, without_end name u /\ without_breaks u v /\ before_marks v p /\ separated p segs.

(** A path with these segments, each maybe with other escapes. *)
Definition path_with (out : list str) (path : str) : Prop :=
  exists es, Forall2 (fun s e => ~ In "/" e /\ forall t, unescaped e t <-> unescaped s t) out es /\
    exists body, glued (B "/") es body /\ path = "/" :: body.

(** No start of the segments goes up more often than down. *)
Inductive inside : list str -> nat -> Prop :=
| in_start : inside [] 0
| in_stays l s n : inside l n -> stays s -> inside (l ++ [s]) n
| in_up l s n : inside l (S n) -> ups s -> inside (l ++ [s]) n
| in_enter l s n : inside l n -> ~ stays s -> ~ ups s -> inside (l ++ [s]) (S n).
