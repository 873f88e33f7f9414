(** Several processes using one cache directory at the same time.

    Every process performs the file operations of its update ([Crash.v]:
    [open(path, 'wb')], database.py:95, then the bytes of [pickle.dump],
    database.py:97).  A schedule is the order in which the operations of all processes
    reach the file system; nothing in the code locks a file, so every order is possible
    (buffering only makes some orders unlikely).

    An open file has an offset of its own: a byte is written at the offset of the writing
    process, whatever other processes did to the file in the meantime; writing behind the end
    fills the gap with zero bytes (POSIX).  No process has more than one cache file open for
    writing. *)
From Verif Require Import Base Dict PyVal Sources Crash.

Definition zero_byte : N := 0%N.

(** The file contents after writing byte [b] at offset [n] of [t]. *)
Definition write_at (n : nat) (b : N) (t : text) : text :=
  firstn n (t ++ repeat zero_byte (n - List.length t)) ++ b :: skipn (S n) t.

Definition contents (p : text) (f : dict text text) : text :=
  match get p f with Some t => t | None => [] end.

(** The file system and the offset of the file each process is writing. *)
Notation cstate := (dict text text * (nat -> nat))%type.

Definition set_offset (off : nat -> nat) (i n : nat) : nat -> nat :=
  fun j => if Nat.eqb j i then n else off j.

(** Process [i] performs an operation. *)
Definition crun_op (st : cstate) (io : nat * fsop) : cstate :=
  let '(f, off) := st in
  let '(i, o) := io in
  match o with
  | Truncate p => (set p [] f, set_offset off i 0)
  | Append p b => (set p (write_at (off i) b (contents p f)) f, set_offset off i (S (off i)))
  end.

Notation schedule := (list (nat * fsop)).

Definition crun_from (st : cstate) (sched : schedule) : cstate := fold_left crun_op sched st.
Definition crun (sched : schedule) (f : dict text text) : dict text text :=
  fst (crun_from (f, fun _ => 0) sched).

(** What process [i] does in a schedule. *)
Definition ops_of (i : nat) (sched : schedule) : list fsop :=
  map snd (filter (fun io => Nat.eqb (fst io) i) sched).

Definition op_path (o : fsop) : text := match o with Truncate p => p | Append p _ => p end.

(** A process reading a cache file ([pickle.load], database.py:89) while others write: each
    [None] is one byte read at the reader's offset, if there is one. *)
Definition read_step (p : text) (st : cstate * text) (x : option (nat * fsop)) : cstate * text :=
  match x with
  | Some io => (crun_op (fst st) io, snd st)
  | None => match nth_error (contents p (fst (fst st))) (List.length (snd st)) with
            | Some b => (fst st, snd st ++ [b])
            | None => st
            end
  end.
Definition read_during (p : text) (sched : list (option (nat * fsop))) (f : dict text text) : cstate * text :=
  fold_left (read_step p) sched ((f, fun _ => 0), []).

Fixpoint writes_of (sched : list (option (nat * fsop))) : schedule :=
  match sched with
  | [] => []
  | Some io :: l => io :: writes_of l
  | None :: l => writes_of l
  end.
