(** * What a value tree means: the abstract JSON value that its public
    observations (kind, string, number, array elements, Find, order of the
    member names) show. *)

From Verif Require Import Base MapModel ParserModel SpecMap SpecGrammar.

(** [represents v j]: the tree [v] shows the abstract value [j]. An object shows
    its members in order of insertion, and looking a name up gives the value of
    the first member with that name. *)
Inductive represents : value -> jv -> Prop :=
| rep_str s : represents (VString s) (JStr s)
| rep_num d : represents (VNumber d) (JNum d)
| rep_bool b : represents (VBool b) (JBool b)
| rep_null : represents VNull JNull
| rep_arr vs js : Forall2 represents vs js -> represents (VArray vs) (JArr js)
| rep_obj m order ms :
    order = map fst ms ->
    (forall k, good_key k -> assoc k ms = None -> find_map_element m k = None) ->
    (forall k j, good_key k -> assoc k ms = Some j ->
       exists v, find_map_element m k = Some v /\ represents v j) ->
    represents (VObject m order) (JObj ms).
