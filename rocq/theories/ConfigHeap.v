(** Configuration objects with identity: the functions of config_utils.py that build a
    configuration from others, on the heap of Heap.v.  In Config.v the same functions work on
    values. *)
From Verif Require Import Base Dict PyVal Util Config Heap.

(** [v[k]] for a dict; TypeError for everything else (lists and texts cannot be indexed with
    a text). *)
Definition h_index (v : hval) (k : text) : hm hval := fun h =>
  match v with
  | HRef a => match nth_error h a with
              | Some (ODict d) => (getitem (KStr k) d, h)
              | _ => (Err TypeError, h)
              end
  | _ => (Err TypeError, h)
  end.
(** [v[k] = x] *)
Definition h_assign (v : hval) (k : text) (x : hval) : hm unit := fun h =>
  match v with
  | HRef a => match nth_error h a with
              | Some (ODict d) => (Ok tt, update_nth h a (ODict (set (KStr k) x d)))
              | _ => (Err TypeError, h)
              end
  | _ => (Err TypeError, h)
  end.
(** [ConfigDict(v)]: a new dict with the same entries. *)
Definition h_config_dict (v : hval) : hm hval := fun h =>
  match v with
  | HRef a => match nth_error h a with
              | Some (ODict d) => alloc (ODict d) h
              | Some (OList []) => alloc (ODict []) h
              | _ => (Err TypeError, h)
              end
  | HStr [] => alloc (ODict []) h
  | _ => (Err TypeError, h)
  end.

Section Configs.
  Variable d : desc.
  (** [item.default] of the item with this name: an object made when the item was. *)
  Variable default : text -> hval.

  (** [copy_conifg_dict], config_utils.py:1029-1034. *)
  Definition h_copy_config (config : hval) : hm hval :=
    do result <- h_config_dict config;
    hfor (keys (d_groups d)) (fun group =>
      do v <- h_index result group;
      do w <- h_config_dict v;
      h_assign result group w) ;;
    ret result.

  (** [merge], config_utils.py:456-468 and, for MergingDict, 709-713. *)
  Definition h_merge_type (t : ctype) (top bottom : hval) : hm hval :=
    match t with
    | TMerging _ _ => fun h =>
      match bottom with
      | HRef b =>
        match nth_error h b with
        | Some (ODict db) =>
          match top with
          | HRef a => match nth_error h a with
                      | Some (ODict da) => alloc (ODict (update db da)) h
                      | _ => (Err TypeError, h)
                      end
          | _ => (Err TypeError, h)
          end
        | _ => (Err AttributeError, h)
        end
      | _ => (Err AttributeError, h)
      end
    | _ => match top with HNone => ret bottom | _ => ret top end
    end.

  (** Body of the inner loop of [merge_configs], config_utils.py:1061-1069. *)
  Definition h_merge_item (bottom result : hval) (p : text * item) : hm unit :=
    let (name, it) := p in
    if is_group_name name then
      let (group, subname) := split_group name in
      do rg <- h_index result group;
      do r <- h_index rg subname;
      do bg <- h_index bottom group;
      do b <- h_index bg subname;
      do m <- h_merge_type (i_type it) r b;
      do rg' <- h_index result group;
      h_assign rg' subname m
    else
      do r <- h_index result name;
      do b <- h_index bottom name;
      do m <- h_merge_type (i_type it) r b;
      h_assign result name m.

  (** [merge_configs], config_utils.py:1037-1070. *)
  Definition h_merge_configs (top : hval) (more : list hval) : hm hval :=
    do result <- h_copy_config top;
    hfor more (fun bottom => hfor (d_items d) (fun p => h_merge_item bottom result p)) ;;
    ret result.

  (** [config_from_defaults], config_utils.py:1121-1138; [get_default_config] of config.py:160-162 is
      this function with the description of xylem. *)
  Definition h_config_from_defaults : hm hval :=
    do result <- new_dict;
    hfor (d_items d) (fun p =>
      let (name, it) := p in
      if is_group_name name then
        let (group, subname) := split_group name in
        do b <- hhas result (KStr group);
        (if b then ret tt else do g <- new_dict; h_assign result group g) ;;
        do g <- h_index result group;
        h_assign g subname (default name)
      else h_assign result name (default name)) ;;
    ret result.

  (** [merge_with_defaults], config_utils.py:1073-1083, and the end of [load_config],
      config_utils.py:1115-1118: the defaults are made and merged last. *)
  Definition h_merge_with_defaults (top : hval) (more : list hval) : hm hval :=
    do dflt <- h_config_from_defaults;
    h_merge_configs top (more ++ [dflt]).
End Configs.
