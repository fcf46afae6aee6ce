(** How colgrep reads the words of a search: colgrep/src/main.rs 160-225 (the subcommand) and 341-406
    (no subcommand).  Both places hold the same code; one model serves both. *)
From Verif Require Import Base Text.
Open Scope nat_scope.

Section READ.
  Variable there : text -> bool.     (* [Path::exists], from the current directory *)

  (** 165-171, 346-352 [looks_like_path] *)
  Definition looks_like_path (s : text) : bool :=
    match s with c :: _ => existsb (Z.eqb c) (txt "./~") | [] => false end || existsb (fun c => (c =? ch "/")%Z || (c =? 92)%Z) s.

  Record search := mk_search { q_query : text; q_pattern : option text; q_paths : list text }.
  (** [None]: the help is shown.  [query]: the first word, [paths]: the other words, [pattern]: of -e *)
  Definition read_words (query : option text) (paths : list text) (pattern : option text) : option search :=
    match (match query with Some q => Some q | None => pattern end) with
    | None => None
    | Some q =>
      Some (
        match pattern, query with
        | Some e, Some _ =>
          if looks_like_path q then mk_search e pattern (q :: paths)                                   (* 176-184 *)
          else mk_search q pattern (match paths with [] => [txt "."] | _ => paths end)                (* 214-222 *)
        | Some _, None => mk_search q pattern (match paths with [] => [txt "."] | _ => paths end)
        | None, _ =>
          match paths with
          | [] => mk_search q None [txt "."]
          | p :: rest =>
            if there p then mk_search q None paths
            else if looks_like_path p then mk_search q None paths                                      (* 207-213: reported later *)
            else mk_search p (Some q) (match rest with [] => [txt "."] | _ => rest end)                (* 185-206 *)
          end
        end)
    end.
  (** main.rs 225, 406 and search.rs 541-551: how many results; [None]: all *)
  Definition limit (k : option nat) (saved : option nat) (context : option nat) (s : search) : option nat :=
    match q_pattern s, k with
    | Some _, None => None
    | _, Some k => Some k
    | None, None => Some (match saved with Some k => k | None => match context with Some _ => 10 | None => 15 end end)
    end.
End READ.
