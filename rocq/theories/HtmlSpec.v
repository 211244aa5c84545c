(** What the HTML report should say, and a reader of its sections. *)
From Verif Require Export ReportSpec.
From Coq Require Import Sorted.
Open Scope string_scope.

(** Identifier, class and name of a node, and what it depends on and is used by:
    identifiers and names, where that part is there. *)
Record html_section := Sec { sec_id : string; sec_class : string; sec_name : string;
  sec_deps : option (list (string * string)); sec_users : option (list (string * string)) }.

(** The line with the anchor. *)
Definition read_anchor (line : string) : option (string * string * string) :=
  match strip "<a name=" line with
  | None => None
  | Some r =>
      match take_quoted r with
      | None => None
      | Some (id, r) =>
          match strip "><h2>" r with
          | None => None
          | Some r =>
              match lpart " " r with
              | None => None
              | Some (cls, r) => match strip_end "</h2></a>" r with Some name => Some (id, cls, name) | None => None end
              end
          end
      end
  end.
(** A line with links, split at [<]. *)
Definition read_link (tag : string) : option (string * string) :=
  match strip "a href=" tag with
  | None => None
  | Some r =>
      match take_quoted r with
      | None => None
      | Some (target, r) => match strip "#" target, strip ">" r with Some id, Some name => Some (id, name) | _, _ => None end
      end
  end.
Fixpoint read_tags (tags : list string) : option (list (string * string)) :=
  match tags with
  | [] => Some []
  | a :: b :: r =>
      match read_link a, read_tags r with
      | Some l, Some ls => if seqb b (match r with [] => "/a>" | _ => "/a>, " end) then Some (l :: ls) else None
      | _, _ => None
      end
  | _ => None
  end.
Definition read_links (line : string) : option (list (string * string)) :=
  match pieces "<" line with
  | "" :: tags => read_tags tags
  | _ => None
  end.
(** A heading and the line after it, if they are there. *)
Definition read_part (head : string) (ls : list string) : option (option (list (string * string)) * list string) :=
  match ls with
  | l :: m :: r => if seqb l head then match read_links m with Some x => Some (Some x, r) | None => None end else Some (None, ls)
  | _ => Some (None, ls)
  end.
Fixpoint read_sections (fuel : nat) (ls : list string) : option (list html_section * list string) :=
  match fuel, ls with
  | S fuel, l :: r =>
      match read_anchor l with
      | None => Some ([], ls)
      | Some (id, cls, name) =>
          match read_part "<p>Depends on:" r with
          | None => None
          | Some (deps, r) =>
              match read_part "<p>Used by:" r with
              | None => None
              | Some (users, r) =>
                  match read_sections fuel r with
                  | Some (secs, rest) => Some (Sec id cls name deps users :: secs, rest)
                  | None => None
                  end
              end
          end
      end
  | _, _ => Some ([], ls)
  end.
Definition read_html (text : string) : option (list html_section) :=
  match lines text with
  | "<HTML>" :: "  <HEAD>" :: "   <TITLE>Modulegraph report</TITLE>" :: "  </HEAD>" :: "  <BODY>" :: "   <H1>Modulegraph report</H1>" :: ls =>
      match read_sections (List.length ls) ls with
      | Some (secs, ["  </BODY>"; "</HTML>"]) => Some secs
      | _ => None
      end
  | _ => None
  end.

(** The name that is shown for the node with this identifier. *)
Inductive named_as (g : graph) (id : string) : string -> Prop :=
| nm_dist n d : In n (g_nodes g) -> n_name n = id -> n_kind n = Distribution -> n_dist n = Some d -> named_as g id (dist_name d)
| nm_node n : In n (g_nodes g) -> n_name n = id -> n_kind n <> Distribution \/ n_dist n = None -> named_as g id id.
(** The links are exactly those to the nodes of a set. *)
Record links_to (g : graph) (of : string -> Prop) (l : list (string * string)) : Prop := {
  lt_once : NoDup (map fst l);
  lt_all : forall id, In id (map fst l) <-> of id;
  lt_named : forall id name, In (id, name) l -> named_as g id name
}.
(** What a section should say; [strict]: no headings without links. *)
Record html_describes (strict : bool) (g : graph) (s : html_section) : Prop := {
  de_node : exists n, reachable g n /\ n_name n = sec_id s /\ n_kind n <> Distribution /\ class_of (n_kind n) (sec_class s);
  de_name : named_as g (sec_id s) (sec_name s);
  de_deps : match sec_deps s with
            | None => forall t ds, ~ In (sec_id s, t, ds) (g_edges g)
            | Some l => l <> [] /\ links_to g (fun t => exists ds, In (sec_id s, t, ds) (g_edges g)) l
            end;
  de_users : match sec_users s with
             | None => forall t ds, reaches g t -> ~ In (t, sec_id s, ds) (g_edges g)
             | Some l => (strict = true -> l <> []) /\ links_to g (fun t => reaches g t /\ exists ds, In (t, sec_id s, ds) (g_edges g)) l
             end
}.
Record html_tells (strict : bool) (g : graph) (secs : list html_section) : Prop := {
  te_sorted : StronglySorted before (map sec_id secs);
  te_all : forall id, In id (map sec_id secs) <-> exists n, reachable g n /\ n_name n = id /\ n_kind n <> Distribution;
  te_each : forall s, In s secs -> html_describes strict g s
}.
