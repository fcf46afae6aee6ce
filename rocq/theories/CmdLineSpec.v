(** What C105 says about the words of a search. *)
From Verif Require Import Base Text CmdLine.
Open Scope nat_scope.

(** A word that can only be meant as a path *)
Definition path_like (w : text) : Prop :=
  (exists r, w = txt "." ++ r) \/ (exists r, w = txt "~" ++ r) \/ In (ch "/") w \/ In 92%Z w.
(** The words of a search: its query, its pattern, its paths; the current directory if no path was given *)
Inductive reads (there : text -> bool) : option text -> list text -> option text -> search -> Prop :=
| Query_and_paths q paths : (forall p r, paths = p :: r -> there p = true \/ path_like p) -> paths <> [] -> reads there (Some q) paths None (mk_search q None paths)
| Query_only q : reads there (Some q) [] None (mk_search q None [txt "."])
| Pattern_then_query e q paths : there q = false -> ~ path_like q -> paths <> [] -> reads there (Some e) (q :: paths) None (mk_search q (Some e) paths)
| Pattern_then_query_here e q : there q = false -> ~ path_like q -> reads there (Some e) [q] None (mk_search q (Some e) [txt "."])
| Pattern_given e q paths : ~ path_like q -> paths <> [] -> reads there (Some q) paths (Some e) (mk_search q (Some e) paths)
| Pattern_given_here e q : ~ path_like q -> reads there (Some q) [] (Some e) (mk_search q (Some e) [txt "."])
| Pattern_and_paths e p paths : path_like p -> reads there (Some p) paths (Some e) (mk_search e (Some e) (p :: paths))
| Pattern_alone e : reads there None [] (Some e) (mk_search e (Some e) [txt "."]).
