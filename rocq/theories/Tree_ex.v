From Coq Require Import String.
From Verif Require Import Prelude Tree.
Open Scope string_scope.
Open Scope list_scope.

Definition leaf (n : string) : tree := Node n [].
Definition ex_tree : tree :=
  Node "phone" [Node "place" [leaf "front"; leaf "high"]; leaf "manner"; Node "voice" [leaf "front"]].
