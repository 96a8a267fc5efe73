(** * Histories of calls on one StructuredData (C4Json.h:559-622).

    The state is the root pointer (C4Json.h:619, rootJsonValue), as in
    [sd_parse]. Each call gives its status and the next state. *)

From Verif Require Import Base ParserModel WriterModel SchemaModel FileModel.

Inductive call : Type :=
| CParse (buf : list Z)
| CParseFile (s : source)
| CWrite (s : sink) (n : nat) (c : Z)
| CValidate (t : ty)
| CDeserialize (g : junk) (t : ty) (d : data)
| CSerialize (t : ty) (d : data).

(** C4Json.cpp:1744-1831, C4Json.h:572-639. Parse and SerializeFrom are the only
    calls that assign rootJsonValue. *)
Definition step (root : option value) (op : call) : out (status * option value) :=
  match op with
  | CParse buf => let! (r, root) := sd_parse root buf in Ret (pr_status r, root)
  | CParseFile s => let! (r, root) := sd_parse_file root s in Ret (pr_status r, root)
  | CWrite s n c => let! (st, _) := sd_write_file root s n c in Ret (st, root)
  | CValidate t => let! st := sd_validate t root in Ret (st, root)
  | CDeserialize g t d => let! (st, _) := sd_deserialize g t root d in Ret (st, root)
  | CSerialize t d => sd_serialize t d root
  end.

Fixpoint run (root : option value) (h : list call) : out (list status * option value) :=
  match h with
  | [] => Ret ([], root)
  | op :: h' =>
      let! (st, root) := step root op in
      let! (sts, root) := run root h' in
      Ret (st :: sts, root)
  end.
