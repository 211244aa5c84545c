(** C102: what the command line program says about the modules of a program. *)
From Verif Require Export Cli ReportSpec HtmlSpec.
Open Scope string_scope.

(** The output has a section for the name, or a node. *)
Definition tells_of (f : output_format) (text x : string) : Prop :=
  match f with
  | FHtml => In x (anchors text)
  | FGraphviz => exists is cs, read_dot text = Some (is, cs) /\ In x (node_ids is)
  end.
(** The text was written to the file, or printed after what had been printed before. *)
Definition arrived (file : option string) (y y' : sys) (text : string) : Prop :=
  match file with
  | None => y_stdout y' = y_stdout y ++ text
  | Some f => assoc f (y_files y') = Some text
  end.
(** No name has a character that the format does not quote (see C54 and C55). *)
Definition special (f : output_format) : list Ascii.ascii := match f with FHtml => ["<"%char; dquote] | FGraphviz => [newline; dquote] end.
Definition without (chars : list Ascii.ascii) (s : string) : Prop := forall c, In c chars -> no_char c s.
Definition printable (f : output_format) (g : graph) : Prop := forall n, reachable g n ->
  without (special f) (n_name n) /\ forall d, n_dist n = Some d -> without (special f) (dist_name d).
