(** * The parser with the value objects it creates and destroys, and with
    allocations that can fail.

    Code/Json4C4/C4Json.cpp:992-1808 again, this time with operator new and
    delete. Every Value object on the heap has a number; the world has the
    numbers of the objects alive. [fails k] says whether the k-th request for
    memory throws std::bad_alloc; MayThrow (Code/Json4C4/C4Json.h:173-191) turns
    that into kException.

    Simplifications: only Value objects are counted, not the memory blocks that
    belong to their members (strings and arrays release those in their
    destructors, see StringModel.v and ArrayModel.v). A request is made at every
    place that can allocate, also when the string fits into its local storage or
    the array has room; [fails] covers these by answering false. *)

From Verif Require Import Base TextModel NumModel MapModel ParserModel.

(** The value objects (see [value] in ParserModel.v) with their addresses. *)
Inductive node : Type :=
| NString (id : nat) (s : list Z)
| NNumber (id : nat) (d : double)
| NBool (id : nat) (b : bool)
| NNull (id : nat)
| NArray (id : nat) (l : list node)
| NObject (id : nat) (m : tree node) (order : list (list Z)).

(** The objects alive and the number of requests made so far (not code: the
    state of the heap). *)
Record world : Type := World { tick : nat; live : list nat }.

(** A tree with every element changed, and the lists of its elements joined
    (not code; used to read off what a tree contains). *)
Definition tmap {A B} (f : A -> B) : tree A -> tree B :=
  fix go (m : tree A) : tree B :=
    match m with
    | Leaf => Leaf
    | Node l k v b r => Node (go l) k (f v) b (go r)
    end.

Definition tflat {A B} (f : A -> list B) : tree A -> list B :=
  fix go (m : tree A) : list B :=
    match m with
    | Leaf => []
    | Node l _ v _ r => go l ++ f v ++ go r
    end.

(** The objects reachable from a value: itself, the elements of an array
    (C4Json.h:471-489), the members of an object (C4Json.h:491-519). *)
Fixpoint ids (n : node) : list nat :=
  match n with
  | NString id _ | NNumber id _ | NBool id _ | NNull id => [id]
  | NArray id l => id :: flat_map ids l
  | NObject id m _ => id :: tflat ids m
  end.

(** The value without the addresses. *)
Fixpoint erase (n : node) : value :=
  match n with
  | NString _ s => VString s
  | NNumber _ d => VNumber d
  | NBool _ b => VBool b
  | NNull _ => VNull
  | NArray _ l => VArray (map erase l)
  | NObject _ m order => VObject (tmap erase m) order
  end.

(** operator delete of the object itself; [UB] if it is not alive. *)
Fixpoint take_out (id : nat) (l : list nat) : option (list nat) :=
  match l with
  | [] => None
  | x :: l' => if Nat.eqb x id then Some l'
               else match take_out id l' with Some r => Some (x :: r) | None => None end
  end.

Definition free (id : nat) (w : world) : out world :=
  match take_out id (live w) with
  | Some l => Ret (World (tick w) l)
  | None => UB
  end.

(** delete of a Value: the destructors, then the memory. ArrayValue::~ArrayValue
    (C4Json.cpp:1422-1428) deletes the elements in order; ObjectValue::~ObjectValue
    (1564-1566) runs MapBase::~MapBase (Code/Terathon/TSMap.cpp:156-159), which
    deletes left, right, this (TSMap.cpp:140-153, DeleteSubtree). *)
Fixpoint delete (n : node) (w : world) : out world :=
  match n with
  | NString id _ | NNumber id _ | NBool id _ | NNull id => free id w
  | NArray id l =>
      let! w := (fix go (l : list node) (w : world) : out world :=
                   match l with
                   | [] => Ret w
                   | x :: l' => let! w := delete x w in go l' w
                   end) l w in
      free id w
  | NObject id m _ =>
      let! w := (fix go (m : tree node) (w : world) : out world :=
                   match m with
                   | Leaf => Ret w
                   | Node l _ v _ r => let! w := go l w in let! w := go r w in delete v w
                   end) m w in
      free id w
  end.

Section Own.
Variable fails : nat -> bool.

(** A request for memory of a string, an array or a buffer; false: it throws. *)
Definition ask (w : world) : bool * world := (negb (fails (tick w)), World (S (tick w)) (live w)).

(** [new T] for a value class T. *)
Definition new_value (w : world) : option nat * world :=
  if fails (tick w) then (None, World (S (tick w)) (live w))
  else (Some (tick w), World (S (tick w)) (tick w :: live w)).

(** C4Json.cpp:1091-1136, StringValue::Parse; SetStringLength (1110-1120) can
    throw. *)
Definition string_parse_o (p : ptr) (w : world) : out (status * list Z * ptr * world) :=
  let! c := rd p 0 in
  if negb (c =? 34) then Ret (kExpectedBeginingDoubleQuotes, [], p, w)
  else
    let p1 := skipn 1 p in
    let! r1 := read_string_literal (length p1) p1 0 0 None in
    match r1 with
    | (st, Some (text_length, string_length), _) =>
        let '(ok, w) := ask w in
        if negb ok then Ret (kException, [], p1, w)
        else
        let storage := repeat 0xAA string_length ++ [0] in
        let! r2 := read_string_literal (length p1) p1 0 0 (Some (storage, O)) in
        let '(_, len2, dst) := r2 in
        let text_length := match len2 with Some (tl, _) => tl | None => text_length end in
        let data := match dst with Some (b, _) => cstr b | None => [] end in
        let p2 := skipn text_length p1 in
        let! c2 := rd p2 0 in
        if negb (c2 =? 34) then Ret (kExpectedEndingDoubleQuotes, data, p2, w)
        else Ret (kOk, data, skipn 1 p2, w)
    | (st, None, _) => Ret (st, [], p1, w)
    end.

(** C4Json.cpp:805-841, ReadDoubleLiteral; the copy is made in a new buffer
    (822), which is deleted again. [None]: the request throws. *)
Definition read_double_literal_o (p : ptr) (w : world) : out (option (status * nat * double) * world) :=
  let! len := compute_float_literal_length p in
  if Nat.eqb len 0 then Ret (Some (kFloatInvalid, len, S754_nan), w)
  else
    let! c0 := rd p 0 in
    let! leading := (if (c0 =? 48) && (1 <? Z.of_nat len)
                     then let! c1 := rd p 1 in Ret (negb (c1 =? 46))
                     else Ret false) in
    if (leading : bool) then Ret (Some (kNumbersCannotHaveLeadingZeros, len, S754_nan), w)
    else
      let '(ok, w) := ask w in
      if negb ok then Ret (None, w)
      else
      let! str := rds p len in
      match strtod str with
      | None => Ret (Some (kFloatInvalid, len, S754_nan), w)
      | Some (v, _) => Ret (Some (kOk, len, v), w)
      end.

(** C4Json.cpp:1165-1193, NumberValue::Parse. *)
Definition number_parse_o (p : ptr) (w : world) : out (status * double * ptr * world) :=
  let! (negative, p1) := parse_sign p in
  let! (r, w) := read_double_literal_o p1 w in
  match r with
  | None => Ret (kException, S754_nan, p1, w)
  | Some (st, len, d) =>
      if negb (status_eqb st kOk) then Ret (st, d, p1, w)
      else
        let d := if negative then dneg d else d in
        let! p2 := skip_ws (skipn len p1) in
        Ret (kOk, d, p2, w)
  end.

(** C4Json.cpp:1012-1041, ParseValue<T>: [parse] is T::Parse on the new object;
    it gives the status, the object, the text pointer and the world. *)
Definition parse_value (p : ptr) (w : world) (parse : nat -> world -> out (status * node * ptr * world))
  : out (status * option node * ptr * world) :=
  match new_value w with
  | (None, w) => Ret (kException, None, p, w)
  | (Some id, w) =>
      let! (st, n, p1, w) := parse id w in
      if status_eqb st kOk then Ret (kOk, Some n, p1, w)
      else let! w := delete n w in Ret (st, None, p1, w)
  end.

(** The static member functions Parse of the four scalar classes
    (C4Json.cpp:1091-1136, 1165-1193, 1236-1255, 1292-1302) on a new object. *)
Definition new_string (p : ptr) (id : nat) (w : world) : out (status * node * ptr * world) :=
  let! (st, s, p1, w) := string_parse_o p w in Ret (st, NString id s, p1, w).
Definition new_number (p : ptr) (id : nat) (w : world) : out (status * node * ptr * world) :=
  let! (st, d, p1, w) := number_parse_o p w in Ret (st, NNumber id d, p1, w).
Definition new_bool (p : ptr) (id : nat) (w : world) : out (status * node * ptr * world) :=
  let! (st, b, p1) := bool_parse p in Ret (st, NBool id b, p1, w).
Definition new_null (p : ptr) (id : nat) (w : world) : out (status * node * ptr * world) :=
  let! (st, p1) := null_parse p in Ret (st, NNull id, p1, w).

(** C4Json.cpp:1043-1072, the first four attempts of ParseAnyValue: the result
    if it returns here. *)
Definition parse_scalar (p : ptr) (w : world) : out (option (status * option node * ptr) * world) :=
  let! (st, n, p1, w) := parse_value p w (new_string p) in
  if status_eqb st kOk || negb (status_eqb st kExpectedBeginingDoubleQuotes) then Ret (Some (st, n, p1), w)
  else
  let! (st, n, p1, w) := parse_value p w (new_number p) in
  if status_eqb st kOk || status_eqb st kNumbersCannotHaveLeadingZeros then Ret (Some (st, n, p1), w)
  else
  let! (st, n, p1, w) := parse_value p w (new_bool p) in
  if status_eqb st kOk then Ret (Some (st, n, p1), w)
  else
  let! (st, n, p1, w) := parse_value p w (new_null p) in
  if status_eqb st kOk then Ret (Some (st, n, p1), w)
  else Ret (None, w).

(** C4Json.cpp:1528-1535 with 1472-1477: the name is assigned, appended to
    insertionOrder (room for it, then the copy of the string), and the element
    inserted; each of the first three can throw. The flag is false when one
    does. The result of InsertMapElement is ignored. *)
Definition insert_accounted_o (m : tree node) (order : list (list Z)) (name : list Z) (n : node) (w : world)
  : out (bool * tree node * list (list Z) * world) :=
  let '(ok, w) := ask w in
  if negb ok then Ret (false, m, order, w) else
  let '(ok, w) := ask w in
  if negb ok then Ret (false, m, order, w) else
  let '(ok, w) := ask w in
  if negb ok then Ret (false, m, order, w) else
  let! (m', _) := insert_map_element m name n in
  Ret (true, m', order ++ [name], w).

(** C4Json.cpp:1043-1086 ParseAnyValue; 1357-1420 ArrayValue::Parse and
    1479-1562 ObjectValue::Parse, the loops starting with the pointer on the
    opening bracket or on a comma; they give the object as far as it is built. *)
Fixpoint parse_any_o (fuel : nat) (p : ptr) (w : world) {struct fuel} : out (status * option node * ptr * world) :=
  match fuel with
  | O => OutOfFuel
  | S fuel' =>
      let! (r, w) := parse_scalar p w in
      match r with
      | Some (st, n, p1) => Ret (st, n, p1, w)
      | None =>
          let! (st, n, p1, w) := parse_value p w (fun id w =>
            let! c := rd p 0 in
            if negb (c =? 91) then Ret (kExpectedOpeningSquareBrackets, NArray id [], p, w)
            else array_loop_o fuel' id [] true p w) in
          if status_eqb st kOk || negb (status_eqb st kExpectedOpeningSquareBrackets)
          then Ret (st, n, p1, w)
          else
          let! (st, n, p2, w) := parse_value p1 w (fun id w =>
            let! c := rd p1 0 in
            if negb (c =? 123) then Ret (kExpectedOpeningCurlyBraces, NObject id Leaf [], p1, w)
            else object_loop_o fuel' id Leaf [] true p1 w) in
          if status_eqb st kOk || negb (status_eqb st kExpectedOpeningCurlyBraces)
             || status_eqb st kNumbersCannotHaveLeadingZeros
          then Ret (st, n, p2, w)
          else Ret (kExpectedJsonValue, None, p2, w)
      end
  end

with array_loop_o (fuel : nat) (id : nat) (acc : list node) (empty : bool) (p : ptr) (w : world) {struct fuel}
  : out (status * node * ptr * world) :=
  match fuel with
  | O => OutOfFuel
  | S fuel' =>
      let! p := skip_ws (skipn 1 p) in
      let! c := rd p 0 in
      if c =? 93 then
        if negb empty then Ret (kExpectedJsonValue, NArray id acc, p, w)
        else Ret (kOk, NArray id acc, skipn 1 p, w)
      else
      let! (st, v, p, w) := parse_any_o fuel' p w in
      match v with
      | Some v =>
          (* AppendArrayElement, 1391-1401; when it throws, [v] is in no array *)
          let '(ok, w) := ask w in
          if negb ok then Ret (kException, NArray id acc, p, w)
          else
          let acc := acc ++ [v] in
          let! p := skip_ws p in
          let! c := rd p 0 in
          if c =? 44 then array_loop_o fuel' id acc false p w
          else if negb (c =? 93) then Ret (kExpectedClosingSquareBracketsOrComma, NArray id acc, p, w)
          else Ret (kOk, NArray id acc, skipn 1 p, w)
      | None => Ret (st, NArray id acc, p, w)
      end
  end

with object_loop_o (fuel : nat) (id : nat) (m : tree node) (order : list (list Z)) (empty : bool) (p : ptr) (w : world)
  {struct fuel} : out (status * node * ptr * world) :=
  match fuel with
  | O => OutOfFuel
  | S fuel' =>
      let! p := skip_ws (skipn 1 p) in
      let! c := rd p 0 in
      if c =? 125 then
        if negb empty then Ret (kExpectedJsonValue, NObject id m order, p, w)
        else Ret (kOk, NObject id m order, skipn 1 p, w)
      else
      let! (st, name, p, w) := string_parse_o p w in
      if negb (status_eqb st kOk) then Ret (st, NObject id m order, p, w)
      else
      let! p := skip_ws p in
      let! c := rd p 0 in
      if negb (c =? 58) then Ret (kExpectedColon, NObject id m order, p, w)
      else
      let! p := skip_ws (skipn 1 p) in
      let! (st, v, p, w) := parse_any_o fuel' p w in
      match v with
      | Some v =>
          let! (ok, m, order, w) := insert_accounted_o m order name v w in
          if negb ok then Ret (kException, NObject id m order, p, w)
          else
          let! p := skip_ws p in
          let! c := rd p 0 in
          if c =? 44 then object_loop_o fuel' id m order false p w
          else if negb (c =? 125) then Ret (kExpectedClosingCurlyBracesOrComma, NObject id m order, p, w)
          else Ret (kOk, NObject id m order, skipn 1 p, w)
      | None => Ret (st, NObject id m order, p, w)
      end
  end.

(** C4Json.cpp:1693-1734, ParseJsonRoot. *)
Definition parse_json_root_o (root : option node) (buf : list Z) (w : world) : out (parse_result * option node * world) :=
  if Z.of_nat (length buf) <? 3 then Ret (PR kTextBufferContentsInvalid 0 0, root, w)
  else if negb (last buf 0 =? 0) then Ret (PR kUnterminatedTextBuffer 0 0, root, w)
  else
    let! start := skip_ws buf in
    let! (st, v, text, w) := parse_any_o (parse_fuel start) start w in
    let root := match v with Some v => Some v | None => root end in
    let! text := skip_ws text in
    let! st := (if status_eqb st kOk
                then let! c := rd text 0 in
                     Ret (if negb (c =? 0) then kExpectedEndOfFile else kOk)
                else Ret st) in
    if negb (status_eqb st kOk) then
      let between := firstn (length start - length text) start in
      let '(line, column) := error_walk (rev between) 1 1 in
      Ret (PR st line column, root, w)
    else Ret (PR st 0 0, root, w).

(** C4Json.cpp:1736-1742, StructuredData::~StructuredData, and 1798-1802 in
    Parse: delete the root if there is one. *)
Definition delete_root (root : option node) (w : world) : out world :=
  match root with
  | Some n => delete n w
  | None => Ret w
  end.

(** C4Json.cpp:1786-1808, StructuredData::Parse(const Array<char>&). *)
Definition sd_parse_o (root : option node) (buf : list Z) (w : world) : out (parse_result * option node * world) :=
  if Z.of_nat (length buf) <? 3 then Ret (PR kTextBufferContentsInvalid 0 0, root, w)
  else if negb (last buf 0 =? 0) then Ret (PR kUnterminatedTextBuffer 0 0, root, w)
  else
    let! w := delete_root root w in
    parse_json_root_o None buf w.

(** A document (not code: a client): texts parsed one after the other; the
    results, the root and the world at the end. *)
Fixpoint parse_all (root : option node) (bufs : list (list Z)) (w : world) : out (list parse_result * option node * world) :=
  match bufs with
  | [] => Ret ([], root, w)
  | buf :: bufs' =>
      let! (r, root, w) := sd_parse_o root buf w in
      let! (rs, root, w) := parse_all root bufs' w in
      Ret (r :: rs, root, w)
  end.

End Own.
