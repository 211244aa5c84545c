(** C101: the distributions that a run uses. *)
From Verif Require Export WithinSpec ReportSpec Report.

(** Python loads the module from this file. *)
Definition loaded_from (sp : spec) (file : string) : Prop :=
  sp_origin sp = Some file /\ (sp_loader sp = LExtension \/ exists src code, sp_loader sp = LInspect false src code).
(** The nodes that distributions() looks at: the reachable ones, or all. *)
Definition looked_at (g : graph) (l : list node) : Prop := traversal g l \/ l = g_nodes g.
