(** Specification: lists of frames without duplicates, with the frames inside frames. *)
From Verif Require Export FrameSpec FrameModel.

(** The frames of which a tag has only one are never texts, comments and so on. *)
Definition sane (f : frame) : Prop :=
  in_names (f_name f) ONE_PER_TAG = true -> kind_of f = KBin \/ kind_of f = KEtco \/ kind_of f = KOwne.
Definition inside (f : frame) : list frame := match f with FChap _ _ _ _ l | FCtoc _ _ _ _ _ l => l | _ => [] end.
Inductive tidy : list frame -> Prop :=
| tidy_list : forall l, Forall sane l -> NoDup (map identity_of l) -> Forall (fun f => tidy (inside f)) l -> tidy l.
