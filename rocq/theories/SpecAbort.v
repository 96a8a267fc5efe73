(** * Specification of what a Deserialize that fails leaves behind. *)

From Verif Require Import Base NumModel MapModel ParserModel WriterModel SpecMap SpecGrammar MapProofs SchemaModel SpecSchema.

Section Mixes.
Variable g : junk.

(** [mixes t j d0 d]: the content [d] is made of the document [j] and of the old
    content [d0]. A scalar is the document's when the document has the right kind,
    otherwise the old one. An array read from an array is a beginning of the
    document's, never the old one. Elements of maps that the document does not
    have are the old ones. Of a structure a beginning is made of the document, the
    members after it are the old ones. Only the last changed member of a structure,
    the elements that an ObjectMap had before and the elements of a std::map can be
    unfinished; all other parts are read as a whole if their type is [strict]. *)
Fixpoint mixes (t : ty) (j : jv) (d0 d : data) : Prop :=
  match t with
  | TString | TStdString => match j with JStr s => d = DString s | _ => d = d0 end
  | TDouble => match j with JNum x => d = DDouble x | _ => d = d0 end
  | TBool => match j with JBool b => d = DBool b | _ => d = d0 end
  | TNull => d = d0
  | TArray t | TVector t =>
      match j with
      | JArr js => exists n ds, d = DArray ds /\
          Forall2 (fun j d => mixes t j (content (fresh g t)) d /\
                              (strict t -> reads g t j (content (fresh g t)) d)) (firstn n js) ds
      | _ => d = d0
      end
  | TObjectMap t =>
      match j with
      | JObj ms => exists l0 l, d0 = DStdMap l0 /\ d = DStdMap l /\
          increasing (map fst l) /\ Forall good_key (map fst l) /\
          forall k, good_key k ->
            assoc k l = assoc k l0 \/
            exists j' d', assoc k ms = Some j' /\ assoc k l = Some d' /\
              mixes t j' (match assoc k l0 with Some x => x | None => content (fresh zeroes t) end) d' /\
              (assoc k l0 = None -> strict t -> reads g t j' (content (fresh zeroes t)) d')
      | _ => d = d0
      end
  | TStdMap t =>
      match j with
      | JObj ms => exists l0 l, d0 = DStdMap l0 /\ d = DStdMap l /\
          increasing (map fst l) /\ Forall good_key (map fst l) /\
          forall k, good_key k ->
            assoc k l = assoc k l0 \/
            exists j' d', assoc k ms = Some j' /\ assoc k l = Some d' /\
              mixes t j' (match assoc k l0 with Some x => x | None => content (fresh zeroes t) end) d'
      | _ => d = d0
      end
  | TStruct p => exists ds0 ds, d0 = DStruct ds0 /\ d = DStruct ds /\ mixes_proto p j ds0 ds
  end
with mixes_proto (p : proto) (j : jv) (ds0 ds : list data) : Prop :=
  match p, ds0, ds with
  | PNil, [], [] => True
  | PItem k init t rest, d0 :: ds0, d :: ds =>
      match k with
      | Named n | Optional n => match member j n with Some j' => mixes t j' d0 d | None => d = d0 end
      | Anonymous => mixes t j d0 d
      end /\
      (ds = ds0 \/
       (strict_proto (PItem k init t PNil) -> reads_proto g (PItem k init t PNil) j [d0] [d]) /\ mixes_proto rest j ds0 ds)
  | _, _, _ => False
  end.
End Mixes.

(** The members of a prototype before the [n]-th. *)
Fixpoint first_members (n : nat) (p : proto) : proto :=
  match n, p with
  | S n, PItem k init t rest => PItem k init t (first_members n rest)
  | _, _ => PNil
  end.

(** The [n]-th member of a prototype. *)
Fixpoint nth_member (n : nat) (p : proto) : option (mention * ty) :=
  match n, p with
  | O, PItem k _ t _ => Some (k, t)
  | S n, PItem _ _ _ rest => nth_member n rest
  | _, PNil => None
  end.

(** A member for which the document does not have what the prototype asks. *)
Definition unfit (kt : mention * ty) (j : jv) : Prop :=
  match kt with
  | (Named n, t) => forall j', member j n = Some j' -> ~ valid t j'
  | (Optional n, t) => ~ is_object j \/ exists j', member j n = Some j' /\ ~ valid t j'
  | (Anonymous, t) => ~ valid t j
  end.
