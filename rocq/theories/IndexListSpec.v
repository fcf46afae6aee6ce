(** What a server is to list. *)
From Verif Require Import Base Text IndexList.
Open Scope nat_scope.
Open Scope list_scope.

(** An index directory by the name [n]: a directory of its own, not a link, with one of the two files. *)
Definition index_dir {F} (es : list (option (entry F))) (n : text) (e : entry F) : Prop :=
  In (Some e) es /\ e_name e = Some n /\ e_type e = Directory
  /\ (e_meta e <> Missing \/ e_config_there e = true).

(** A directory holds a name once. *)
Definition names_once {F} (es : list (option (entry F))) : Prop :=
  forall i j a b n, nth_error es i = Some (Some a) -> nth_error es j = Some (Some b) ->
    e_name a = Some n -> e_name b = Some n -> i = j.

(** The whole number a key of metadata.json holds, another if it holds none. *)
Inductive holds {F} (key : text -> figure F) (k : text) (default : nat) : nat -> Prop :=
| holds_it : forall n, key k = FInt (Z.of_nat n) -> (Z.of_nat n < 2 ^ 64)%Z -> holds key k default n
| holds_not : (forall n, key k = FInt (Z.of_nat n) -> (2 ^ 64 <= Z.of_nat n)%Z) -> holds key k default default.

(** A summary that says what the files of the index say. *)
Definition tells {F} (f_zero : F) (f_int : Z -> F) (e : entry F) (s : summary F) : Prop :=
  s_max s = match e_config e with Some c => c_max c | None => None end
  /\ match e_meta e with
     | Missing => s_documents s = 0 /\ s_embeddings s = 0 /\ s_partitions s = 0 /\ s_dimension s = 0
                  /\ s_nbits s = match e_config e with Some c => c_nbits c | None => 4 end
                  /\ s_avg s = f_zero /\ s_has_metadata s = false
     | Damaged => False
     | Parsed key => holds key (txt "num_documents") 0 (s_documents s)
                  /\ holds key (txt "num_embeddings") 0 (s_embeddings s)
                  /\ holds key (txt "num_partitions") 0 (s_partitions s)
                  /\ holds key (txt "embedding_dim") 0 (s_dimension s)
                  /\ holds key (txt "nbits") 4 (s_nbits s)
                  /\ s_avg s = match key (txt "avg_doclen") with FInt z => f_int z | FFloat f => f | FOther => f_zero end
                  /\ s_has_metadata s = e_db e
     end.
