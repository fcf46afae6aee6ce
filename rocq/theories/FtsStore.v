(** The full-text tables kept in the metadata database (text_search.rs 262-935) and the calls
    that maintain them (index.rs 1719-1848). *)
From Verif Require Import Base F32 IndexModel IndexSpec.
From Verif Require Import Text MetaModel SyncModel FtsText.
Open Scope nat_scope.

(** What the model takes from Rust's number formatting and from FTS5's tokenizers. *)
Record fts_engine := {
  x_int : Z -> text;                       (* an integer in decimal *)
  x_num : Z -> text;                       (* serde_json's text of a float, given by its bits *)
  x_f64 : Z -> text;                       (* Rust's text of an f64, given by its bits *)
  x_terms : bool -> text -> list text }.   (* FTS5's terms of a text: trigram or unicode61 *)

(** The two tables: the content table (rowid and text) and the FTS5 index, which records at
    which places a term occurs in a row (no place: it does not). *)
Record tables := { tb_content : list (Z * text); tb_places : Z -> text -> list nat }.
(** [_fts_config_] (None: no table or no tokenizer in it) and the tables, if they exist. *)
Record fts := { ft_config : option fts_tokenizer; ft_tables : option tables }.
Definition no_fts : fts := {| ft_config := None; ft_tables := None |}.
Definition no_places : tables := {| tb_content := []; tb_places := fun _ _ => [] |}.

(** the places (from 0) at which [t] stands among [ts] *)
Fixpoint places_from (n : nat) (t : text) (ts : list text) : list nat :=
  match ts with
  | [] => []
  | u :: r => (if text_eqb t u then [n] else []) ++ places_from (S n) t r
  end.
Definition places (t : text) (ts : list text) : list nat := places_from 0 t ts.
Definition occurs (t : text) (ts : list text) : bool := existsb (text_eqb t) ts.
(** FTS5 INSERT of a row: entries for the terms of the row.  FTS5 'delete' command: the caller
    supplies the text; the entries of its terms are removed, whatever was indexed for the row
    (sqlite.org/fts5.html section 4.4.3). *)
Definition put_places (p : Z -> text -> list nat) (id : Z) (ts : list text) : Z -> text -> list nat :=
  fun i t => if (i =? id)%Z && occurs t ts then places t ts else p i t.
Definition cut_places (p : Z -> text -> list nat) (id : Z) (ts : list text) : Z -> text -> list nat :=
  fun i t => if (i =? id)%Z && occurs t ts then [] else p i t.
Definition content_at (c : list (Z * text)) (id : Z) : option text :=
  option_map snd (find (fun p => (fst p =? id)%Z) c).
(** INSERT OR REPLACE / DELETE by rowid *)
Definition put_content (c : list (Z * text)) (id : Z) (x : text) : list (Z * text) :=
  (id, x) :: filter (fun p => negb (fst p =? id)%Z) c.
Definition cut_content (c : list (Z * text)) (id : Z) : list (Z * text) :=
  filter (fun p => negb (fst p =? id)%Z) c.

Section FTS.
  Variable X : fts_engine.

  (** text_search.rs 275-299 [collect_text_parts] *)
  Fixpoint collect_text_parts (v : json) : list text :=
    match v with
    | JStr s => if nonempty s then [s] else []
    | JInt z => [x_int X z]
    | JFloat f => [x_num X f]
    | JBool b => [if b then txt "true" else txt "false"]
    | JObj o => flat_map (fun p => collect_text_parts (snd p)) o
    | JArr l => flat_map collect_text_parts l
    | JNull => []
    end.
  (** text_search.rs 269-273 [metadata_to_text] *)
  Definition metadata_to_text (v : json) : text := join [32%Z] (collect_text_parts v).
  (** text_search.rs 901-911 and 645-655: the texts of the stored values of a row *)
  Definition value_text (v : sqlv) : list text :=
    match v with
    | SText s => if nonempty s then [s] else []
    | SInt z => [x_int X z]
    | SReal f => [x_f64 X f]
    | SBlob _ | SNull => []
    end.
  Definition row_text (r : thin_row * fat_row) : text :=
    join [32%Z] (flat_map value_text (t_vals (fst r) ++ f_vals (snd r))).

  (** text_search.rs 75-85: IdentifierAware texts are indexed with unicode61 *)
  Definition is_trigram (k : fts_tokenizer) : bool := match k with Trigram => true | _ => false end.
  Definition same_tokenizer (a b : fts_tokenizer) : bool :=
    match a, b with
    | Unicode61, Unicode61 | Trigram, Trigram | IdentifierAware, IdentifierAware => true
    | _, _ => false
    end.
  (** text_search.rs 306-388 [ensure_tables] *)
  Definition ensure_tables (f : fts) (k : fts_tokenizer) : tables :=
    match ft_tables f with
    | Some tb => match ft_config f with
                 | Some k' => if same_tokenizer k' k then tb else no_places
                 | None => tb
                 end
    | None => no_places
    end.
  (** text_search.rs 424-434: one row of [insert_rows] *)
  Definition fts_insert_row (k : fts_tokenizer) (tb : tables) (p : json * Z) : tables :=
    let x := metadata_to_text (fst p) in
    {| tb_content := put_content (tb_content tb) (snd p) x;
       tb_places := put_places (tb_places tb) (snd p) (x_terms X (is_trigram k) (prepare_document_text x k)) |}.
  (** text_search.rs 463-491 [index], 397-443 [insert_rows]; the lengths agree at the only
      caller modelled *)
  Definition fts_index (f : fts) (md : list json) (ids : list Z) (k : fts_tokenizer) : fts :=
    match md with
    | [] => f
    | _ => {| ft_config := Some k;
              ft_tables := Some (fold_left (fts_insert_row k) (combine md ids) (ensure_tables f k)) |}
    end.
  Definition config_trigram (f : fts) : bool := match ft_config f with Some k => is_trigram k | None => false end.
  (** text_search.rs 545-560: one row of [delete] *)
  Definition fts_delete_row (tri : bool) (tb : tables) (id : Z) : tables :=
    match content_at (tb_content tb) id with
    | Some x => {| tb_content := cut_content (tb_content tb) id;
                   tb_places := cut_places (tb_places tb) id (x_terms X tri x) |}
    | None => tb
    end.
  (** text_search.rs 503-568 [delete] *)
  Definition fts_delete (f : fts) (ids : list Z) : fts :=
    {| ft_config := ft_config f;
       ft_tables := option_map (fun tb => fold_left (fts_delete_row (config_trigram f)) ids tb) (ft_tables f) |}.
  (** text_search.rs 634-676: one row of [update_rows] *)
  Definition fts_update_row (tri : bool) (d : db) (tb : tables) (id : Z) : tables :=
    let tb1 := match content_at (tb_content tb) id with
               | Some x => {| tb_content := tb_content tb; tb_places := cut_places (tb_places tb) id (x_terms X tri x) |}
               | None => tb
               end in
    match find (fun r => (t_sub (fst r) =? id)%Z) (joined d) with
    | Some r => {| tb_content := put_content (tb_content tb1) id (row_text r);
                   tb_places := put_places (tb_places tb1) id (x_terms X tri (row_text r)) |}
    | None => tb1
    end.
  (** text_search.rs 579-682 [update_rows] *)
  Definition fts_update_rows (f : fts) (d : db) (ids : list Z) : fts :=
    {| ft_config := ft_config f;
       ft_tables := option_map (fun tb => fold_left (fts_update_row (config_trigram f) d) ids tb) (ft_tables f) |}.
  (** text_search.rs 839-935 [rebuild].  The rows have distinct ids (C23), so the INSERTs do not
      clash. *)
  Definition fts_rebuild (f : fts) (d : db) : fts :=
    let k := match ft_config f with Some k => k | None => Unicode61 end in
    let content := match thin_cols d ++ fat_cols d with
                   | [] => map (fun t => (t_sub t, [])) (thin_rows d)
                   | _ => map (fun r => (t_sub (fst r), row_text r)) (joined d)
                   end in
    {| ft_config := Some k;
       ft_tables := Some {| tb_content := content;
                            tb_places := fun i t => match content_at content i with
                                                    | Some x => places t (x_terms X (is_trigram k) x)
                                                    | None => []
                                                    end |} |}.

  Variable V : env.
  Variable E : engine.
  (** index.rs 1821-1831: the ids among the handle's documents, and whether they are its last *)
  Definition valid_ids (n : nat) (ids : list Z) : list Z :=
    dedup Z.eqb (isort Z.leb (filter (fun id => (0 <=? id)%Z && (id <? Z.of_nat n)%Z) ids)).
  Definition is_suffix_delete (n : nat) (valid : list Z) : bool :=
    match valid with
    | [] => false
    | first :: _ => (Z.of_nat n - Z.of_nat (length valid) <=? first)%Z
    end.
  (** The full-text part of a call that returned [r] and led from [s] to [s'].  The tokenizer
      [k] is that of the call's configuration.  A database created by the call is new. *)
  Definition fts_step (s s' : synced) (r : res (list Z)) (o : sop) (k : fts_tokenizer) (f : fts) : fts :=
    match o, r with
    | SAddPath _ _ (Some md), Ok ids => fts_index (if db_exists (snd s) then f else no_fts) md ids k
    | SDelete ids, Ok out =>
      if (0 <? hd 0%Z out)%Z && db_exists (snd s) then
        let valid := valid_ids (num_documents (snd (fst s))) ids in
        if is_suffix_delete (num_documents (snd (fst s))) valid then fts_delete f valid
        else match snd s' with Db d => fts_rebuild f d | _ => f end
      else f
    | _, _ => f
    end.
  Definition fexec (s : synced * fts) (o : sop * fts_tokenizer) : res (res (list Z) * (synced * fts)) :=
    bind (sexec V E (fst s) (fst o)) (fun r => let '(out, s') := r in
    Ok (out, (s', fts_step (fst s) s' out (fst o) (snd o) (snd s)))).
  Fixpoint fexec_all (s : synced * fts) (ops : list (sop * fts_tokenizer)) : res (list (res (list Z)) * (synced * fts)) :=
    match ops with
    | [] => Ok ([], s)
    | o :: os => bind (fexec s o) (fun r => let '(out, s') := r in
        bind (fexec_all s' os) (fun r' => let '(outs, s'') := r' in Ok (out :: outs, s'')))
    end.
  (** index.rs 1719-1757 in an empty directory *)
  Definition fcreate (docs0 : list doc) (g0 : config) (md0 : option (list json)) (k0 : fts_tokenizer)
    : res (res (list Z) * (synced * fts)) :=
    bind (screate V E docs0 g0 md0) (fun r => let '(out, s) := r in
    Ok (out, (s, match md0, out with Some md, Ok ids => fts_index no_fts md ids k0 | _, _ => no_fts end))).
  Definition frun (docs0 : list doc) (g0 : config) (md0 : option (list json)) (k0 : fts_tokenizer)
      (ops : list (sop * fts_tokenizer)) : res (list (res (list Z)) * (synced * fts)) :=
    bind (fcreate docs0 g0 md0 k0) (fun r => let '(out, s) := r in
    bind (fexec_all s ops) (fun r' => let '(outs, s') := r' in Ok (out :: outs, s'))).
End FTS.
