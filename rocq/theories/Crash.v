(** File operations of an update at byte granularity, for crash points.
    [open(path, 'wb')] truncates (database.py:95), [pickle.dump] then appends bytes
    (database.py:97).  A crash keeps a prefix of the operations; buffering in the
    process only restricts which prefixes occur.  Reordering by the operating
    system on power failure is not modelled. *)
From Verif Require Import Base Dict PyVal Sources.

Notation fs := (dict text text).

Inductive fsop := Truncate (p : text) | Append (p : text) (b : N).

Definition run_op (f : fs) (o : fsop) : fs :=
  match o with
  | Truncate p => set p [] f
  | Append p b => set p (match get p f with Some t => t ++ [b] | None => [b] end) f
  end.

Definition run_ops (ops : list fsop) (f : fs) : fs := fold_left run_op ops f.

Definition write_ops (w : write_outcome) (p : text) (bytes : text) : list fsop :=
  match w with
  | WriteOk => Truncate p :: map (Append p) bytes
  | OpenFails _ => []
  | WriteFails n _ => Truncate p :: map (Append p) (firstn n bytes)
  end.

Section Crash.
  Variable sha1 : text -> list N.
  Variable dumps : pyval -> text.
  Variable version : pyval.

  (** The file operations of an update, in order. *)
  Definition source_ops (envs : nat -> step_env) cd i (s : source) : list fsop :=
    match load_from_source (envs i) s with
    | (s', Ok _) => match source_path sha1 cd s' with
                    | Ok p => write_ops (e_write (envs i)) p (dumps (cache_record version s'))
                    | Err _ => []
                    end
    | (_, Err _) => []
    end.

  Fixpoint update_ops (envs : nat -> step_env) cd i (l : list source) : list fsop :=
    match l with
    | [] => []
    | s :: l' => source_ops envs cd i s ++
                 match snd (update_source sha1 dumps version envs cd i s []) with
                 | Err e => if is_Exception e then update_ops envs cd (S i) l' else []
                 | Ok _ => update_ops envs cd (S i) l'
                 end
    end.
End Crash.
