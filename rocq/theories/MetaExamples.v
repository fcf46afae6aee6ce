(** A concrete engine for the examples: text columns turn single digits into text, comparisons
    on integers and texts, LIKE and the patterns are prefix tests, rows are scanned backwards. *)
From Coq Require Import Permutation String.
From Verif Require Import Base F32 IndexModel IndexSpec IndexExamples.
From Verif Require Import Text SqlModel SqlSpec MetaModel MetaQuery MetaSpec SyncModel SyncSpec.
Open Scope list_scope.
Open Scope nat_scope.

Fixpoint is_prefix (p s : text) : bool :=
  match p, s with
  | [], _ => true
  | x :: p, y :: s => (x =? y)%Z && is_prefix p s
  | _, _ => false
  end.
Definition ex_aff (t : ctype) (v : sqlv) : sqlv :=
  match t, v with
  | CText, SInt z => SText [(48 + z)%Z]
  | _, _ => v
  end.
Definition ex_cmp (o : cmp_op) (_ : ctype) (a b : sqlv) : option bool :=
  match a, b with
  | SInt x, SInt y => Some (match o with
      | OEq => (x =? y)%Z | ONe => negb (x =? y)%Z | OLt => (x <? y)%Z | OLe => (x <=? y)%Z | OGt => (y <? x)%Z | OGe => (y <=? x)%Z end)
  | SText x, SText y => Some (match o with OEq => text_eqb x y | ONe => negb (text_eqb x y) | _ => is_prefix x y end)
  | SNull, _ | _, SNull => None
  | _, _ => Some false
  end.
Definition ex_engine : engine := {|
  e_aff := ex_aff; e_f64 := fun z => z; e_finite := fun f => (f <? 1000)%Z; e_json := fun _ => txt "{}"; e_unjson := fun _ => None;
  e_scan := @rev _; e_cmp := ex_cmp;
  e_like := fun v p => match v, p with SText v, SText p => Some (is_prefix p v) | _, _ => None end;
  e_num := fun _ => true;
  e_regex := fun p => Some (is_prefix p) |}.
Lemma ex_good : good_engine ex_engine.
Proof. split; cbn; auto; try (intros []; reflexivity). intro l. apply Permutation_sym, Permutation_rev. Qed.

Definition obj (l : list (string * json)) : json := JObj (map (fun p => (txt (fst p), snd p)) l).
Definition str (s : string) : json := JStr (txt s).
(** Three rows; [file] is in the thin table, [title] and [year] in the other. *)
Definition ex_items : list json :=
  [obj [("file", str "a.rs"); ("title", str "one"); ("year", JInt 1990)];
   obj [("file", str "b.rs"); ("title", str "two"); ("year", JInt 2001)];
   obj [("file", str "c.rs"); ("title", str "three"); ("year", JNull)]]%string.
Definition ex_store : store := fst (create ex_engine NoDb ex_items [0; 1; 2]%Z).
Definition ex_more : list json :=
  [obj [("title", str "four"); ("tags", JArr [JInt 1])]; obj [("file", str "e.rs"); ("year", JInt 2010)]]%string.
(** After an update with a new key, a deletion and a change of one row. *)
Definition ex_hist : list meta_op :=
  [MCreate ex_items [0; 1; 2]%Z; MUpdate ex_more [3; 4]%Z; MDelete [1; 77; 1]%Z;
   MUpdateWhere (txt "year > ? and file like ?") [JInt 2000; str "e"] (obj [("title", str "changed"); ("file", str "f.rs")])]%string.
Definition meta_run (s : store) (ops : list meta_op) : store := fold_left (fun s o => fst (meta_step ascii_unicode ex_engine s o)) ops s.
Definition ex_store2 : store := meta_run NoDb ex_hist.
Ltac ids_tac := cbn [ids_ok]; split; [repeat constructor; cbn; intuition lia|repeat constructor; try lia; vm_compute; reflexivity].
Lemma ex_store_reached : store_reached ascii_unicode ex_engine ex_store.
Proof. apply (sr_step _ _ NoDb (MCreate ex_items [0; 1; 2]%Z)); [constructor|]. cbn [ids_ok]. split; [repeat constructor; cbn; intuition lia|repeat constructor; lia]. Qed.
Lemma ex_store2_reached : store_reached ascii_unicode ex_engine ex_store2.
Proof.
  unfold ex_store2, ex_hist, meta_run. cbn [fold_left].
  repeat apply sr_step; try constructor.
  - repeat constructor; cbn; intuition lia.
  - repeat constructor; lia.
  - repeat constructor; cbn; intuition lia.
  - repeat constructor; try lia; vm_compute; reflexivity.
Qed.
(** Index and metadata together: documents with, without, and with refused metadata. *)
Definition ex_sops : list sop :=
  [SAdd [[tok 10]; [tok 30; tok 20]] (cfg 2 0 10 5) (Some ex_more);
   SAdd [[tok 20]] (cfg 2 0 10 5) (Some [obj [("bad key", JInt 1)]]);
   SAdd [[tok 20]] (cfg 2 0 10 5) (Some []);
   SDelete [1; 3; 3; 77]%Z;
   SAddPath [[tok 20]] (cfg 2 0 1 7) (Some [obj [("file", str "z.rs")]]);
   SAdd [[tok 20]] (cfg 2 0 1 7) None]%string.
Definition ex_srun := got ([], ((empty_disk, ex_meta0), NoDb)) (srun ex_env ex_engine ex_docs3 (cfg 2 3 2 0) (Some ex_items) ex_sops).
