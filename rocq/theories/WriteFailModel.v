(** * Write when it is interrupted: Code/Json4C4/C4Json.cpp:603-609, 1440-1466,
    1656-1691 and 1810-1831 again, with requests of indentationCharArray that throw,
    and with a program that ends between two calls of the kernel.

    StructuredData::Write is noexcept (C4Json.h:567) and the appends of ExpandArray are
    not in a MayThrow block, so a request that throws ends the program
    (std::terminate): [Died], with the WriteFile calls made so far. The other functions
    that Write calls request nothing (operator<<, snprintf to a char[32], FindMapElement).

    Simplifications: the reserved size of the indentation does not reach 2^31, and the
    blocks given back by the growing array are not counted. *)

From Verif Require Import Base NumModel MapModel ParserModel WriterModel FileModel.

(** indentationCharArray: its elements and reservedCount (TSArray.h:251-252), and the
    number of requests made so far (not code). *)
Record indent : Type := Ind { chars : list Z; room : Z; asked : nat }.

(** The result of a Write function: it returns, with the status, the WriteFile calls and
    the array; or the program ends. *)
Inductive wres : Type :=
| Done (st : status) (out : list chunk) (a : indent)
| Died (out : list chunk).

(** The calls [pre] before those of the result (not code). *)
Definition after (pre : list chunk) (r : wres) : wres :=
  match r with Done st out a => Done st (pre ++ out) a | Died out => Died (pre ++ out) end.

(** TSArray.h:788-807, SetReservedCount with baseCount 0: the new reservedCount. *)
Definition grown (r n : Z) : Z := Z.max (Z.max n 4) (r + Z.max (Z.land (r / 2 + 3) (Z.lnot 3)) 4).

Section Fails.
(** Request number [k] throws std::bad_alloc. *)
Variable fails : nat -> bool.

(** TSArray.h:889-903, AppendArrayElement; [None] when it throws. *)
Definition append_f (a : indent) (c : Z) : option indent :=
  let n := Z.of_nat (length (chars a)) + 1 in
  if room a <=? Z.of_nat (length (chars a)) then
    if fails (asked a) then None
    else Some (Ind (chars a ++ [c]) (grown (room a) n) (S (asked a)))
  else Some (Ind (chars a ++ [c]) (room a) (asked a)).

(** C4Json.cpp:603-609, ExpandArray. *)
Fixpoint expand_f (n : nat) (a : indent) (c : Z) : option indent :=
  match n with
  | O => Some a
  | S n' => match append_f a c with Some a' => expand_f n' a' c | None => None end
  end.

(** SetArrayElementCount(count - n), C4Json.cpp:1460 and 1686; reservedCount stays
    (TSArray.h:818-842). *)
Definition shrink_f (a : indent) (n : nat) : indent := Ind (shrink_array (chars a) n) (room a) (asked a).

Variables (n : nat) (c : Z).

(** The loop of ArrayValue::Write, C4Json.cpp:1445-1458. *)
Fixpoint elements_f (ws : list (indent -> wres)) (a : indent) : wres :=
  match ws with
  | [] => Done kOk [] a
  | w :: ws' =>
      after [chars a]
        match w a with
        | Died out => Died out
        | Done st out a1 =>
            if negb (status_eqb st kOk) then Done st out a1
            else after (out ++ [comma ws'; [10]]) (elements_f ws' a1)
        end
  end.

(** The loop of ObjectValue::Write, C4Json.cpp:1662-1684. *)
Fixpoint members_f (m : tree (indent -> wres)) (order : list (list Z)) (a : indent) : wres :=
  match order with
  | [] => Done kOk [] a
  | name :: order' =>
      match find_named m name with
      | None => Done kMissingObjectElement [] a
      | Some (k, w) =>
          after [chars a; [34]; put_text k; [34; 32; 58; 32]]
            match w a with
            | Died out => Died out
            | Done st out a1 =>
                if negb (status_eqb st kOk) then Done st out a1
                else after (out ++ [comma order'; [10]]) (members_f m order' a1)
            end
      end
  end.

(** The frame of both: C4Json.cpp:1442-1444 and 1460-1465; 1658-1660 and 1686-1690. *)
Definition bracketed (b e : Z) (body : indent -> wres) (a : indent) : wres :=
  after [[b; 10]]
    match expand_f n a c with
    | None => Died []
    | Some a1 =>
        match body a1 with
        | Died out => Died out
        | Done st out a2 =>
            if negb (status_eqb st kOk) then Done st out a2
            else let a3 := shrink_f a2 n in Done kOk (out ++ [chars a3; [e]]) a3
        end
    end.

(** C4Json.cpp:1154-1159, 1211-1230, 1273-1286, 1319-1325, 1440-1466, 1656-1691, the
    Write functions. *)
Fixpoint write_f (v : value) : indent -> wres :=
  match v with
  | VString s => fun a => Done kOk [[34]; put_text s; [34]] a
  | VNumber d => fun a => Done kOk [snprintf17g 32 d] a
  | VBool b => fun a => Done kOk [if b then [116; 114; 117; 101] else [102; 97; 108; 115; 101]] a
  | VNull => fun a => Done kOk [[110; 117; 108; 108]] a
  | VArray l => bracketed 91 93 (elements_f (map write_f l))
  | VObject m order => bracketed 123 125 (members_f (map_tree write_f m) order)
  end.

(** C4Json.cpp:1810-1831, StructuredData::Write after the file has been opened: the
    status, unless the program ended, and the WriteFile calls. *)
Definition sd_write_f (root : option value) : option status * list chunk :=
  match root with
  | Some v => match write_f v (Ind [] 0 0) with Done st out _ => (Some st, out) | Died out => (None, out) end
  | None => (Some kInvalidStructuredData, [])
  end.
End Fails.

(** ** A program that ends between two calls of the kernel *)

(** The loop of WriteFile, C4Json.cpp:461-471, when the program ends after the writes
    in the list: [None] when it has ended, and the contents of the file. *)
Fixpoint loop_until (writes : list (option nat)) (data contents : list Z) (offset : nat)
  : list Z * option (nat * list (option nat)) :=
  match data with
  | [] => (contents, Some (offset, writes))
  | _ =>
      match writes with
      | [] => (contents, None)
      | None :: writes' => (contents, Some (offset, writes'))
      | Some k :: writes' =>
          let n := Nat.min k (length data) in
          loop_until writes' (skipn n data) (put contents offset (firstn n data)) (offset + n)
      end
  end.

(** The WriteFile calls, as in FileModel.v (C4Json.cpp:478-490). *)
Fixpoint chunks_until (writes : list (option nat)) (chunks : list chunk) (contents : list Z) (offset : nat) : list Z :=
  match chunks with
  | [] => contents
  | d :: chunks' =>
      match loop_until writes d contents offset with
      | (contents, None) => contents
      | (contents, Some (offset, writes)) => chunks_until writes chunks' contents offset
      end
  end.

(** What is in the file [old] when StructuredData::Write (C4Json.cpp:1810-1831) of
    [root] has ended or the program has, after at most the calls in [writes]. *)
Definition interrupted (fails : nat -> bool) (root : option value) (old : list Z) (writes : list (option nat)) (n : nat) (c : Z) : list Z :=
  chunks_until writes (snd (sd_write_f fails n c root)) old 0.
