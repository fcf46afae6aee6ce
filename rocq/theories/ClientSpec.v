(** What a call of the Python client asks for. *)
From Verif Require Import Base F32 Text SqlModel MetaModel FtsRank ApiEmbed ApiEmbedSpec ApiRead Client.
Open Scope nat_scope.
Open Scope list_scope.

(** Rows of finite numbers, all as wide, at least one, that fit in memory. *)
Definition good_rows (rows : rows_of) : Prop :=
  exists r c, rectangular rows r c /\ (1 <= r)%Z /\ (1 <= c)%Z /\ (r * c * 4 < 2 ^ 64)%Z /\ Forall (Forall finite) rows.
(** The search asked for: the arguments as they were passed.  Weight and kind of fusion only mean something
    with a text query, parameters of a filter only with a filter. *)
Definition asked_for {A} (c : call A) (queries : list rows_of) : request A :=
  {| r_queries := Some (map plain_rows queries); r_text := q_text _ c;
     r_alpha := match q_text _ c with Some _ => q_alpha _ c | None => None end; r_fusion := match q_text _ c with Some _ => q_fusion _ c | None => None end;
     r_top_k := option_map (sp_top_k A) (q_params _ c); r_subset := q_subset _ c; r_filter := q_filter _ c; r_params := match q_filter _ c with Some _ => q_filter_params _ c | None => None end |}.
(** What the index sees of the parameters passed: without any, 8 probes, 4096 candidates and no threshold *)
Definition settings {A} (p : option (search_params A)) : index_params A :=
  match p with
  | Some p => {| ip_probe := sp_probe A p; ip_full := sp_full A p; ip_threshold := sp_threshold A p |}
  | None => {| ip_probe := 8; ip_full := 4096; ip_threshold := None |}
  end.
(** A query given as embeddings *)
Definition given_as (q : item) (rows : rows_of) : Prop := q = IRows rows \/ q = IDict rows.
(** Arguments that the client passes on: a subset or a filter, and neither of them empty. *)
Definition plain_call {A} (c : call A) : Prop :=
  q_subset _ c <> Some [] /\ q_filter _ c <> Some [] /\ (q_subset _ c = None \/ q_filter _ c = None).
(** A name that can stand in an address: not empty, no slash, question mark or hash sign, not one or two dots.
    Percent signs and control characters are left out of the model. *)
Definition plain_name (n : text) : Prop :=
  n <> [] /\ n <> txt "." /\ n <> txt ".." /\ ~ In 47%Z n /\ ~ In 63%Z n /\ ~ In 35%Z n /\ ~ In 37%Z n /\ Forall (fun c => (32 <= c)%Z) n.
