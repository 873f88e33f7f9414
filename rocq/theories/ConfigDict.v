(** Model of [ceorce_config_dict] and [copy_to_dict] (config_utils.py:340-375) on values in which
    dicts carry their class. *)
From Verif Require Import Base Dict PyVal.

(** The class of a dict: [dict] or [ConfigDict] (config_utils.py:327-337). *)
Inductive cls := Plain | Conf.
Inductive cval :=
| CAtom (v : pyval)                        (* neither a dict nor a list *)
| CList (l : list cval)
| CDict (c : cls) (d : list (pkey * cval)).

Definition c_none : cval := CAtom VNone.

(** config_utils.py:340-357 [ceorce_config_dict]: the function has no [return] after the loop, so
    the dict built is dropped and the result is None.  The recursive calls have no effect. *)
Definition ceorce_config_dict (config : cval) (copy : bool) : cval :=
  match config with
  | CDict c _ =>
    match copy, c with
    | false, Conf => config
    | _, _ => c_none
    end
  | _ => config
  end.

(** config_utils.py:360-375 [copy_to_dict] for a dict with the entries [d]; [deepcopy] of a value
    is the value. *)
Fixpoint copy_value (v : cval) : cval :=
  match v with
  | CDict Conf d => CDict Plain (map (fun p => (fst p, copy_value (snd p))) d)
  | _ => v
  end.
Definition copy_to_dict (d : list (pkey * cval)) : cval :=
  CDict Plain (map (fun p => (fst p, copy_value (snd p))) d).
