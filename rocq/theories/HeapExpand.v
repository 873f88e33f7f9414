(** The expansion of rules files (specs/plugins/rules.py:350-447) as the code does it: in
    place, on objects that a YAML document with aliases may use in several places. *)
From Verif Require Import Base Dict PyVal RulesDict Verify Heap.

(** rules.py:355-362, 382-390, 400-408: null, a string or a list become a dict with one
    entry; a dict is taken as it is; anything else is an error. *)
Definition h_as_dict (k : pkey) (v : hval) : hm hval := fun h =>
  match v with
  | HNone => (do l <- alloc (OList []); alloc (ODict [(k, l)])) h
  | HStr t => (do l <- alloc (OList [HStr t]); alloc (ODict [(k, l)])) h
  | HRef a => match nth_error h a with
              | Some (OList _) => alloc (ODict [(k, v)]) h
              | Some (ODict _) => (Ok v, h)
              | None => (Err AttributeError, h)
              end
  | _ => (Err ValueError, h)
  end.

(** rules.py:363-367 and 368-372 *)
Definition h_field (d : hval) (k : pkey) : hm unit :=
  do m <- items d;
  match get k m with
  | Some HNone => do l <- alloc (OList []); hset d k l
  | Some (HStr t) => do l <- alloc (OList [HStr t]); hset d k l
  | _ => ret tt
  end.

(** [x == []] *)
Definition h_is_empty_list (v : hval) : hm bool := fun h =>
  match v with
  | HRef a => match nth_error h a with Some (OList []) => (Ok true, h) | _ => (Ok false, h) end
  | _ => (Ok false, h)
  end.

(** rules.py:350-375 [expand_definition] *)
Definition h_expand_definition (v : hval) : hm hval :=
  do d <- h_as_dict k_packages v;
  h_field d k_packages ;;
  h_field d k_depends ;;
  do m <- items d;
  match get k_depends m with
  | Some x => do e <- h_is_empty_list x; if e then hdel d k_depends ;; ret d else ret d
  | None => ret d
  end.

(** [for k, x in d.items(): d[k] = f(k, x)] *)
Definition h_expand_items (f : pkey -> hval -> hm hval) (d : hval) : hm unit :=
  do l <- items d;
  hfor l (fun p => do x <- f (fst p) (snd p); hset d (fst p) x).

(** rules.py:378-393 [expand_installer_definition] *)
Definition h_expand_installer_definition (v : hval) : hm hval :=
  do d <- h_as_dict (KStr default_installer) v;
  h_expand_items (fun _ x => h_expand_definition x) d ;;
  ret d.

(** rules.py:396-420 [expand_os_version_definition] *)
Definition h_expand_os_version_definition (os : pkey) (v : hval) : hm hval :=
  do d <- h_as_dict (KStr any_version) v;
  do d' <- (if eqb os (KStr any_os) then
              do m <- items d;
              if has (KStr any_version) m then
                if Nat.eqb (List.length m) 1 then ret d else fail ValueError
              else alloc (ODict [(KStr any_version, d)])
            else ret d);
  h_expand_items (fun _ x => h_expand_installer_definition x) d' ;;
  ret d'.

(** [isinstance(v, dict)] *)
Definition h_is_dict (v : hval) : hm bool := fun h =>
  match v with
  | HRef a => match nth_error h a with Some (ODict _) => (Ok true, h) | _ => (Ok false, h) end
  | _ => (Ok false, h)
  end.

(** rules.py:423-430 [expand_os_definition] *)
Definition h_expand_os_definition (v : hval) : hm hval :=
  do b <- h_is_dict v;
  if b then h_expand_items h_expand_os_version_definition v ;; ret v else fail ValueError.

(** rules.py:440-446: the handler fails itself with a TypeError, see Expand.v. *)
Definition h_wrap_err (f : hm hval) : hm hval := fun h =>
  match f h with (Err ValueError, h') => (Err TypeError, h') | r => r end.

(** rules.py:433-447 [expand_rules] *)
Definition h_expand_rules (v : hval) : hm hval :=
  do d <- (match v with HNone => new_dict | _ => ret v end);
  do b <- h_is_dict d;
  if b then h_expand_items (fun _ x => h_wrap_err (h_expand_os_definition x)) d ;; ret d
  else fail ValueError.
