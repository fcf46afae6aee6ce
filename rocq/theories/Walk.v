(** Which files of a project colgrep indexes: the walk over the directory, the names it leaves out,
    size, language. *)
From Verif Require Import Base Text Colgrep.
Open Scope nat_scope.

(** A directory tree.  [Other] is a symbolic link (links are not followed), a socket, a device or an
    entry that cannot be read.  Names are UTF-8 ([to_string_lossy] changes nothing). *)
Inductive entry :=
| File (f : file)
| Dir (children : list (text * entry))
| Other.

(** What the walk is told: whether the rules of .gitignore and its kin (crate [ignore], a
    dependency) hide the entry at a path, and whether [canonicalize] puts a path inside the project. *)
Record surroundings := { w_git : list text -> bool; w_inside : list text -> bool }.

Fixpoint slashed (names : list text) : text :=
  match names with [] => [] | [n] => n | n :: l => n ++ ch "/" :: slashed l end.
Definition ends_with (s t : text) : bool := starts_with (rev s) (rev t).

(** colgrep/src/index/mod.rs 2775-2838 [IGNORED_DIRS], 2841-2848 [ALLOWED_HIDDEN_DIRS],
    2851 [ALLOWED_HIDDEN_FILES] *)
Definition ignored_dirs : list text := map txt
  [".git"; ".svn"; ".hg"; "node_modules"; "vendor"; "third_party"; "third-party"; "external";
   "target"; "build"; "dist"; "out"; "bin"; "obj";
   "__pycache__"; ".venv"; "venv"; ".env"; "env"; ".tox"; ".nox"; ".pytest_cache"; ".mypy_cache"; ".ruff_cache"; "*.egg-info"; ".eggs";
   ".next"; ".nuxt"; ".output"; ".cache"; ".parcel-cache"; ".turbo"; "target"; "go.sum"; ".gradle"; ".m2";
   ".idea"; ".vscode"; ".vs"; "*.xcworkspace"; "*.xcodeproj"; "coverage"; ".coverage"; "htmlcov"; ".nyc_output";
   "tmp"; "temp"; "logs"; ".DS_Store"]%string.
Definition allowed_hidden_dirs : list text := map txt [".github"; ".gitlab"; ".circleci"; ".buildkite"; ".claude"; ".claude-plugin"]%string.
Definition allowed_hidden_files : list text := map txt [".gitlab-ci.yml"; ".gitlab-ci.yaml"; ".travis.yml"]%string.

(** mod.rs 2882-2945 [should_ignore]: a pattern on a name (2903-2909, 2923-2931, 2934-2942), a
    pattern on the whole path (2886-2894), one name (2897-2943), the whole *)
Definition on_name (name p : text) : bool :=
  match p with
  | c :: suffix => if (c =? ch "*")%Z then ends_with suffix name else text_eqb name p
  | [] => text_eqb name p
  end.
Definition on_path (path p : text) : bool :=
  match p with
  | c :: suffix => if (c =? ch "*")%Z then ends_with suffix path else text_eqb path p || starts_with (p ++ txt "/") path
  | [] => text_eqb path p || starts_with (p ++ txt "/") path
  end.
Definition name_ignored (extra force : list text) (name : text) : bool :=
  if existsb (on_name name) force then false
  else (starts_with (txt ".") name && negb (mem name allowed_hidden_dirs) && negb (mem name allowed_hidden_files))
       || existsb (on_name name) ignored_dirs || existsb (on_name name) extra.
Definition should_ignore (extra force names : list text) : bool :=
  if existsb (on_path (slashed names)) force then false else existsb (name_ignored extra force) names.

(** ** The walk
    mod.rs 2695-2713: [filter_entry] drops an entry and what is below it; the root itself is kept *)
Section Walk.
  Variable W : surroundings.
  Variables extra force : list text.
  Definition kept (path : list text) : bool := negb (w_git W path) && negb (should_ignore extra force path).
  Fixpoint walk (path : list text) (e : entry) : list (list text * file) :=
    match e with
    | File f => [(path, f)]
    | Dir l => (fix go (l : list (text * entry)) := match l with
        | [] => []
        | (n, c) :: l' => (if kept (path ++ [n]) then walk (path ++ [n]) c else []) ++ go l'
        end) l
    | Other => []
    end.

  (** ** detect_language
      parser/language.rs 8-65; [Path::extension]: after the last dot, none if nothing stands before it *)
  Definition special_names : list (text * text) := map (fun p => (txt (fst p), txt (snd p)))
    [("dockerfile", "dockerfile"); ("makefile", "makefile"); ("gnumakefile", "makefile")]%string.
  Definition extensions : list (text * text) := map (fun p => (txt (fst p), txt (snd p)))
    [("py", "python"); ("ts", "typescript"); ("tsx", "typescript"); ("js", "javascript"); ("jsx", "javascript"); ("mjs", "javascript");
     ("go", "go"); ("rs", "rust"); ("java", "java"); ("c", "c"); ("h", "c");
     ("cpp", "cpp"); ("cc", "cpp"); ("cxx", "cpp"); ("hpp", "cpp"); ("hxx", "cpp"); ("rb", "ruby"); ("cs", "csharp");
     ("kt", "kotlin"); ("kts", "kotlin"); ("swift", "swift"); ("scala", "scala"); ("sc", "scala"); ("php", "php"); ("lua", "lua");
     ("ex", "elixir"); ("exs", "elixir"); ("hs", "haskell"); ("ml", "ocaml"); ("mli", "ocaml"); ("r", "r"); ("rmd", "r"); ("zig", "zig");
     ("jl", "julia"); ("sql", "sql"); ("vue", "vue"); ("svelte", "svelte"); ("css", "css");
     ("qml", "qml"); ("html", "html"); ("htm", "html"); ("md", "markdown"); ("markdown", "markdown");
     ("txt", "text"); ("text", "text"); ("rst", "text"); ("adoc", "asciidoc"); ("asciidoc", "asciidoc"); ("org", "org");
     ("yaml", "yaml"); ("yml", "yaml"); ("toml", "toml"); ("json", "json");
     ("sh", "shell"); ("bash", "shell"); ("zsh", "shell"); ("ps1", "powershell")]%string.
  Fixpoint last_dot (s : text) : option (text * text) :=
    match s with
    | [] => None
    | c :: s' => match last_dot s' with
        | Some (b, a) => Some (c :: b, a)
        | None => if (c =? ch ".")%Z then Some ([], s') else None
        end
    end.
  Definition extension (name : text) : option text :=
    match last_dot name with Some (_ :: _, a) => Some a | _ => None end.
  Variable U : unicode.
  Definition detect_language (path : list text) : option text :=
    let name := last path [] in
    match assoc special_names (u_lower U name) with
    | Some l => Some l
    | None => match extension name with Some a => assoc extensions (u_lower U a) | None => None end
    end.

  (** ** scan_files
      mod.rs 2715-2759, 2738-2744 [is_file_too_large], 2750-2768 [is_within_project_root];
      [max_size] is [MAX_FILE_SIZE] (line 42) *)
  Variable max_size : Z.
  Variable wanted : option (list text).
  Definition is_within_project_root (path : list text) : bool :=
    if negb (contains (txt "..") (slashed path)) then true else w_inside W path.
  Definition scan_step (acc : list (list text) * nat) (e : list text * file) : list (list text) * nat :=
    let '(files, skipped) := acc in
    if (max_size <? f_size (snd e))%Z then (files, S skipped)
    else match detect_language (fst e) with
    | None => (files, skipped)
    | Some lang =>
        if match wanted with Some ls => mem lang ls | None => true end then
          if is_within_project_root (fst e) then (files ++ [fst e], skipped) else (files, S skipped)
        else (files, skipped)
    end.
  Definition scan_files (root : entry) : list (list text) * nat := fold_left scan_step (walk [] root) ([], 0).
End Walk.

(** The project as [Colgrep.v] sees it: all regular files of the tree, and what the walk reaches. *)
Fixpoint all_files (path : list text) (e : entry) : list (list text * file) :=
  match e with
  | File f => [(path, f)]
  | Dir l => (fix go (l : list (text * entry)) := match l with
      | [] => []
      | (n, c) :: l' => all_files (path ++ [n]) c ++ go l'
      end) l
  | Other => []
  end.
Fixpoint unslashed (s : text) : list text :=
  match s with
  | [] => [[]]
  | c :: r => if (c =? ch "/")%Z then [] :: unslashed r else match unslashed r with n :: l => (c :: n) :: l | [] => [[c]] end
  end.
Definition prefixes (p : list text) : list (list text) := map (fun i => firstn (S i) p) (seq 0 (length p)).
Definition project_of (W : surroundings) (extra force : list text) (root : entry) : project :=
  {| p_files := map (fun e => (slashed (fst e), snd e)) (all_files [] root);
     p_visible := fun q => forallb (kept W extra force) (prefixes (unslashed q)) && is_within_project_root W (unslashed q) |}.
