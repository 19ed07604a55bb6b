(** Specification of the document ids given out over the life of processes, for P_ProcessIds.v. An id is a pair: the
    collection's id and the document's. *)
From Verif Require Import Bytes SMap Provider Sequence Model Meta Ddl DdlSpec Domain Process.

(** the id an event gives out, in the state the event finds *)
Definition gave (p : proc) (e : pev) : option (Z * Z) :=
  match e with
  | PNext c io =>
      match p_reg p c with
      | Some s => match q_exec (y_db (p_sys p)) (y_db (p_sys p)) [] io s QNext with (_, _, Ok (QId v)) => Some (c, v) | _ => None end
      | None => None
      end
  | _ => None
  end.
(** the ids of collection [c] in [vs] taken away *)
Definition without (held : list (Z * Z)) (c : Z) (vs : list Z) : list (Z * Z) := filter (fun x => negb ((fst x =? c) && existsb (Z.eqb (snd x)) vs)) held.
(** the ids in use: given out and not put back. They stay in use when the process dies *)
Definition held_step (p : proc) (held : list (Z * Z)) (e : pev) : list (Z * Z) :=
  match e with
  | PPut c vs => without held c vs
  | _ => match gave p e with Some x => held ++ [x] | None => held end
  end.
(** only ids in use are put back, each once *)
Definition put_ok (held : list (Z * Z)) (e : pev) : Prop :=
  match e with PPut c vs => NoDup vs /\ forall v, In v vs -> In (c, v) held | _ => True end.
Section WithJson.
Variable J : json.
Fixpoint held_from (p : proc) (held : list (Z * Z)) (es : list pev) : list (Z * Z) :=
  match es with [] => held | e :: es' => held_from (pstep J p e) (held_step p held e) es' end.
Fixpoint puts_from (p : proc) (held : list (Z * Z)) (es : list pev) : Prop :=
  match es with [] => True | e :: es' => put_ok held e /\ puts_from (pstep J p e) (held_step p held e) es' end.
Definition in_use (d : db) (es : list pev) : list (Z * Z) := held_from (pstart d) [] es.
Definition puts_ok (d : db) (es : list pev) : Prop := puts_from (pstart d) [] es.
(** all ids ever given out, in order *)
Fixpoint given_from (p : proc) (es : list pev) : list (Z * Z) :=
  match es with [] => [] | e :: es' => match gave p e with Some x => [x] | None => [] end ++ given_from (pstep J p e) es' end.
Definition given (d : db) (es : list pev) : list (Z * Z) := given_from (pstart d) es.
End WithJson.
