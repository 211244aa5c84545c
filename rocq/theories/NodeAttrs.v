(** Computed attributes of the node classes of modules and packages, [_nodes.py]. *)
From Verif Require Export Machine.

(** modulegraph2/_nodes.py:115-121 [Module.uses_dunder_import]; nodes of other
    classes do not have the attribute (AttributeError). *)
Definition uses_dunder_import (x : node) : result bool :=
  match n_kind x with
  | Module _ => ROk (memb "__import__" (n_read x))
  | _ => RErr EAttr
  end.

(** modulegraph2/_nodes.py:123-129 [Module.uses_dunder_file]. *)
Definition uses_dunder_file (x : node) : result bool :=
  match n_kind x with
  | Module _ => ROk (memb "__file__" (n_read x))
  | _ => RErr EAttr
  end.
