(** C106: the names of languages, written out by language. *)
From Verif Require Import Base Text FtsText Colgrep Sdk MetaExamples.
From Coq Require Import String.
Open Scope string_scope.
Open Scope nat_scope.
Open Scope list_scope.

(** What each language may be called. *)
Definition names_of : list (string * list string) :=
  [("python", ["python"; "py"]); ("typescript", ["typescript"; "ts"]); ("javascript", ["javascript"; "js"]); ("go", ["go"]); ("rust", ["rust"; "rs"]); ("java", ["java"]); ("c", ["c"]);
   ("cpp", ["cpp"; "c++"]); ("ruby", ["ruby"; "rb"]); ("csharp", ["csharp"; "c#"; "cs"]); ("kotlin", ["kotlin"; "kt"]); ("swift", ["swift"]); ("scala", ["scala"]); ("php", ["php"]); ("lua", ["lua"]);
   ("elixir", ["elixir"; "ex"]); ("haskell", ["haskell"; "hs"]); ("ocaml", ["ocaml"; "ml"]); ("r", ["r"]); ("zig", ["zig"]); ("julia", ["julia"; "jl"]); ("sql", ["sql"]); ("vue", ["vue"]); ("svelte", ["svelte"]);
   ("css", ["css"]); ("qml", ["qml"]); ("html", ["html"; "htm"]); ("markdown", ["markdown"; "md"]); ("text", ["text"; "txt"]); ("yaml", ["yaml"; "yml"]); ("toml", ["toml"]); ("json", ["json"]);
   ("dockerfile", ["dockerfile"]); ("makefile", ["makefile"]); ("shell", ["shell"; "sh"; "bash"]); ("powershell", ["powershell"; "ps1"]); ("asciidoc", ["asciidoc"; "adoc"]); ("org", ["org"])].
Definition names : list (text * text) := flat_map (fun p => map (fun n => (txt n, txt (fst p))) (snd p)) names_of.
Definition pair_eqb (x y : text * text) : bool := text_eqb (fst x) (fst y) && text_eqb (snd x) (snd y).
Lemma pair_eqb_eq x y : pair_eqb x y = true -> x = y.
Proof. destruct x, y. unfold pair_eqb. cbn [fst snd]. rewrite andb_true_iff. intros (A & B). apply text_eqb_eq in A, B. subst. reflexivity. Qed.
Lemma assoc_in {B} (l : list (text * B)) k v : assoc l k = Some v -> In (k, v) l.
Proof.
  induction l as [|[k' v'] l IH]; cbn [assoc]; [discriminate|]. destruct (text_eqb k k') eqn:E; [|intro H; right; apply IH; exact H]. apply text_eqb_eq in E. intro H. injection H as ->. subst. left. reflexivity.
Qed.
(** C106. A word in upper or lower case is the language it is a name of; no other word is a language. *)
Theorem C106_names :
  forall U w l, good_unicode U -> ascii_text w ->
  (from_str U w = Some l <-> exists lang ns n, In (lang, ns) names_of /\ In n ns /\ map to_lower1 w = txt n /\ l = txt lang).
Proof.
  intros U w l G W. unfold from_str. rewrite (gu_lower U G) by exact W. split.
  - intro E. apply assoc_in in E.
    assert (H : forallb (fun x => existsb (pair_eqb x) names) words = true) by (vm_compute; reflexivity). rewrite forallb_forall in H. specialize (H _ E). apply existsb_exists in H. destruct H as (y & I & Y). apply pair_eqb_eq in Y. subst y.
    unfold names in I. apply in_flat_map in I. destruct I as ((lang & ns) & I & J). cbn [fst snd] in J. apply in_map_iff in J. destruct J as (n & Y & J). injection Y as Y1 Y2. exists lang, ns, n. auto.
  - intros (lang & ns & n & I & J & -> & ->).
    assert (H : forallb (fun p => forallb (fun n => match assoc words (txt n) with Some l => text_eqb l (txt (fst p)) | None => false end) (snd p)) names_of = true) by (vm_compute; reflexivity).
    rewrite forallb_forall in H. specialize (H _ I). cbn [fst snd] in H. rewrite forallb_forall in H. specialize (H _ J). destruct (assoc words (txt n)) as [x|]; [|discriminate H]. apply text_eqb_eq in H. rewrite H. reflexivity.
Qed.
Print Assumptions C106_names.
Example C106_names_example : from_str ascii_unicode (txt "C++") = Some (txt "cpp") /\ from_str ascii_unicode (txt "Bash") = Some (txt "shell") /\ from_str ascii_unicode (txt "perl") = None.
Proof. repeat split. Qed.
