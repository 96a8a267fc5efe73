(** * Model of class File (C4Json.cpp:199-491, Linux branch) and of
    StructuredData::Parse and Write with a file name (C4Json.cpp:1744-1784,
    1810-1831).

    The kernel is given by the results of its calls. A read or write that
    returns -1 is [None]; [Some n] is the number of bytes it would like to
    transfer, which is cut to what the caller asked for (and, for read, to what
    is left in the file). A list of results that is used up is [OutOfFuel], so
    a loop that never ends is [OutOfFuel] for every list.

    Simplifications: the file is not changed by others while it is open, except
    that fstat may give another size than read finds (a file that shrinks or
    grows in between). The int of numberOfBytesRead does not wrap, because at
    most 65534 bytes are requested; the chunks of Write are shorter than 2^31. *)

From Verif Require Import Base ParserModel WriterModel.

(** C4Json.cpp:97, MAX_FILE_SIZE. The macro [0xffff - 1] has no parentheses; it is
    used only as [x > MAX_FILE_SIZE]. *)
Definition max_file_size : Z := 65535 - 1.

(** ** Reading *)

(** The while loop of ReadFile, C4Json.cpp:401-411: [togo] is end - p, [buf] the
    memory at [buffer], [rest] the bytes of the file after the file offset. The
    destination of every read is [buffer], not [p]. *)
Fixpoint read_loop (oracle : list (option nat)) (togo : nat) (buf rest : list Z)
  : out (bool * list Z) :=
  match togo with
  | O => Ret (true, buf)
  | _ =>
      match oracle with
      | [] => OutOfFuel
      | None :: _ => Ret (false, buf)
      | Some k :: oracle' =>
          let n := Nat.min k (Nat.min togo (length rest)) in
          let! buf := wrs buf 0 (firstn n rest) in
          read_loop oracle' (togo - n) buf (skipn n rest)
      end
  end.

(** C4Json.cpp:352-416, ReadFile; the file is open. [size > MAX_FILE_SIZE] has been
    excluded by the only caller and is kept here. *)
Definition read_file (oracle : list (option nat)) (buf : list Z) (size : Z) (contents : list Z)
  : out (bool * list Z) :=
  if max_file_size <? size then Ret (false, buf)
  else read_loop oracle (Z.to_nat size) buf contents.

(** What the kernel says about a file name: open failed, or what fstat and read
    give. *)
Inductive source : Type :=
| NoFile
| AFile (fstat : option Z) (contents : list Z) (reads : list (option nat)).

(** GetFileSize, C4Json.cpp:310-350: 0 when fstat fails. *)
Definition file_size (fstat : option Z) : Z := match fstat with Some n => n | None => 0 end.

(** C4Json.cpp:1744-1784, StructuredData::Parse of a file name. *)
Definition sd_parse_file (root : option value) (s : source) : out (parse_result * option value) :=
  match s with
  | NoFile => Ret (PR KFileOpenError 0 0, root)
  | AFile fstat contents reads =>
      let size := file_size fstat in
      if max_file_size <? size then Ret (PR KFileTooLarge 0 0, root)
      else
        let buf := repeat 0 (Z.to_nat (size + 1)) in
        let! (ok, buf) := read_file reads buf size contents in
        if ok then sd_parse root buf else Ret (PR KFileReadError 0 0, root)
  end.

(** ** Writing *)

(** write(fd, data, n): the bytes replace those at the file offset. *)
Definition put (contents : list Z) (offset : nat) (data : list Z) : list Z :=
  firstn offset contents ++ repeat 0 (offset - length contents) ++ data ++ skipn (offset + length data) contents.

(** The while loop of WriteFile, C4Json.cpp:461-471. The state is the contents of
    the file, the file offset and the results to come. *)
Fixpoint write_loop (oracle : list (option nat)) (data : list Z) (contents : list Z) (offset : nat)
  : out (list Z * nat * list (option nat)) :=
  match data with
  | [] => Ret (contents, offset, oracle)
  | _ =>
      match oracle with
      | [] => OutOfFuel
      | None :: oracle' => Ret (contents, offset, oracle')
      | Some k :: oracle' =>
          let n := Nat.min k (length data) in
          write_loop oracle' (skipn n data) (put contents offset (firstn n data)) (offset + n)
      end
  end.

(** The WriteFile calls of Write, one after the other; operator<< (C4Json.cpp:478-490)
    and the Write functions ignore the status of WriteFile. *)
Fixpoint write_chunks (oracle : list (option nat)) (chunks : list chunk) (contents : list Z) (offset : nat)
  : out (list Z * nat * list (option nat)) :=
  match chunks with
  | [] => Ret (contents, offset, oracle)
  | c :: chunks' =>
      let! (contents, offset, oracle) := write_loop oracle c contents offset in
      write_chunks oracle chunks' contents offset
  end.

(** What the kernel does with a file name: open fails, or opens a file with these
    contents (no bytes when it did not exist: O_CREAT; O_TRUNC is not given). *)
Inductive sink : Type :=
| NoSink
| ASink (contents : list Z) (writes : list (option nat)).

(** C4Json.cpp:1810-1831, StructuredData::Write: the status and the contents of
    the file afterwards. *)
Definition sd_write_file (root : option value) (s : sink) (n : nat) (c : Z) : out (status * option (list Z)) :=
  match s with
  | NoSink => Ret (KFileOpenError, None)
  | ASink contents writes =>
      let '(st, chunks) := sd_write root n c in
      let! (contents, _, _) := write_chunks writes chunks contents 0 in
      Ret (st, Some contents)
  end.
