(** Model of the directories of a [SourcesContext]: sources/impl.py:184-185, 208-235 and the
    constants of config.py:66-78. *)
From Verif Require Import Base Dict PyVal RulesDict Verify Paths Sources Config XylemConfig.

(** config.py:72-78: [DEFAULT_CACHE_DIR], [DEFAULT_SOURCES_DIR]. *)
Definition default_cache_dir : text := system_cache_dir (u "/") xylem_tool.
Definition default_sources_dir : text := sources_dir_of (system_config_dir (u "/") xylem_tool).

(** sources/impl.py:184-185 *)
Definition sources_cache_dir (cache_dir : text) : text := path_join cache_dir (u "sources").

(** [value or default] for a path option. *)
Definition path_or (v : pyval) (dflt : text) : res text :=
  match v with
  | VStr ((_ :: _) as p) => Ok p
  | _ => if truthy v then Err TypeError else Ok dflt
  end.

(** sources/impl.py:215-218 [setup_paths]: the sources directory and the cache directory.  A value
    that is neither a text nor falsy is outside (an error here). *)
Definition setup_paths (c : pydict) : res (text * text) :=
  let* s := attr c (u "sources_dir") in
  let* sources := path_or s default_sources_dir in
  let* k := attr c (u "cache_dir") in
  let* cache := path_or k default_cache_dir in
  Ok (sources, sources_cache_dir cache).

(** sources/impl.py:233-235 [is_default_dirs]. *)
Definition is_default_dirs (p : text * text) : bool :=
  eqb (fst p) default_sources_dir && eqb (snd p) (sources_cache_dir default_cache_dir).
