(** * Model of class File on Windows (C4Json.cpp:199-476, JSON4C4_WINDOWS) and of
    StructuredData::Parse and Write with a file name there (C4Json.cpp:1744-1784,
    1810-1831).

    The system is given as in FileModel.v: [None] is a call that returns FALSE, [Some n]
    the number of bytes it would like to transfer. CreateFileW with CREATE_ALWAYS makes an
    existing file empty. The handle is not INVALID_HANDLE_VALUE and not null after a
    successful CreateFileW.

    Simplifications: those of FileModel.v; the name given to CreateFileW is that of
    WideStrModel.v (C95) and is not looked at here. *)

From Verif Require Import Base ParserModel WriterModel FileModel.

(** The while loop of ReadFile, C4Json.cpp:368-382: [pos] is p - buffer, [togo] is
    end - p. *)
Fixpoint win_read_loop (oracle : list (option nat)) (togo : nat) (pos : nat) (buf rest : list Z)
  : out (bool * list Z) :=
  match togo with
  | O => Ret (true, buf)
  | _ =>
      match oracle with
      | [] => OutOfFuel
      | None :: _ => Ret (false, buf)
      | Some k :: oracle' =>
          let n := Nat.min k (Nat.min togo (length rest)) in
          let! buf := wrs buf pos (firstn n rest) in
          win_read_loop oracle' (togo - n) (pos + n) buf (skipn n rest)
      end
  end.

(** C4Json.cpp:352-383 and 415, ReadFile; the file is open. *)
Definition win_read_file (oracle : list (option nat)) (buf : list Z) (size : Z) (contents : list Z)
  : out (bool * list Z) :=
  if max_file_size <? size then Ret (false, buf)
  else win_read_loop oracle (Z.to_nat size) 0%nat buf contents.

(** C4Json.cpp:1744-1784, StructuredData::Parse of a file name; GetFileSize is
    C4Json.cpp:310-330. *)
Definition win_parse_file (root : option value) (s : source) : out (parse_result * option value) :=
  match s with
  | NoFile => Ret (PR KFileOpenError 0 0, root)
  | AFile info contents reads =>
      let size := file_size info in
      if max_file_size <? size then Ret (PR KFileTooLarge 0 0, root)
      else
        let buf := repeat 0 (Z.to_nat (size + 1)) in
        let! (ok, buf) := win_read_file reads buf size contents in
        if ok then sd_parse root buf else Ret (PR KFileReadError 0 0, root)
  end.

(** C4Json.cpp:1810-1831, StructuredData::Write: OpenFile (220-255) with CREATE_ALWAYS
    leaves no bytes of the file; the loop of WriteFile (424-447) is that of FileModel.v. *)
Definition win_write_file (root : option value) (s : sink) (n : nat) (c : Z) : out (status * option (list Z)) :=
  match s with
  | NoSink => Ret (KFileOpenError, None)
  | ASink _ writes =>
      let '(st, chunks) := sd_write root n c in
      let! (contents, _, _) := write_chunks writes chunks [] 0 in
      Ret (st, Some contents)
  end.
