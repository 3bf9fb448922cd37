(** JSON trees, shared by the model of serde_json (Json.v) and by the grammar (SpecJson.v). *)
From Verif Require Import Base.

(** A JSON value ([serde_json::Value] as used in src/signing_key.rs lines 81-97, and the trees written
    by [serde_json::to_string], src/html_form_data.rs line 555, src/private/bound_token.rs line 199).
    A number is kept as its text; an object as its members in order, duplicates included. *)
Inductive json : Type :=
| JNull
| JBool (b : bool)
| JNum (tok : str)
| JStr (s : str)
| JArr (l : list json)
| JObj (l : list (str * json)).

Section json_ind.
  Context (P : json -> Prop)
    (Hnull : P JNull) (Hbool : forall b, P (JBool b)) (Hnum : forall t, P (JNum t))
    (Hstr : forall s, P (JStr s))
    (Harr : forall l, Forall P l -> P (JArr l))
    (Hobj : forall l, Forall (fun kv => P (snd kv)) l -> P (JObj l)).
(** Induction over the values written at src/html_form_data.rs line 555. *)
  Fixpoint json_ind' (j : json) : P j :=
    match j with
    | JNull => Hnull
    | JBool b => Hbool b
    | JNum t => Hnum t
    | JStr s => Hstr s
    | JArr l =>
        Harr l ((fix go l := match l return Forall P l with
                             | [] => Forall_nil _
                             | x :: r => Forall_cons _ (json_ind' x) (go r)
                             end) l)
    | JObj l =>
        Hobj l ((fix go l := match l return Forall (fun kv => P (snd kv)) l with
                             | [] => Forall_nil _
                             | x :: r => Forall_cons _ (json_ind' (snd x)) (go r)
                             end) l)
    end.
End json_ind.
