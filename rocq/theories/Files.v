(** * Files: an abstract file system, text encodings and chunked reading

    Paths stand for files (two spellings of the same path, or links to the same
    file, are the same path here).  Permissions, directories and concurrent
    modification are not modelled. *)
From Verif Require Import Base Parser Dialect.

Definition bytes := list N.
Definition path := N.
Definition fs := path -> option bytes.
Definition upd (f : fs) (p : path) (b : option bytes) : fs :=
  fun q => if (q =? p)%N then b else f q.

(** A text encoding.  [cd_decode b] is the text a reader of these bytes gets,
    and whether it reaches the end of the file (otherwise a UnicodeDecodeError
    follows); [cd_encode t] are the bytes written for the text [t] as a whole
    ([None]: it contains a character that cannot be encoded). *)
Record codec := mk_codec {
  cd_decode : bytes -> str * bool;
  cd_encode : str -> option bytes
}.

(** Iterating over a file opened with [open(path, "r", newline="")]: the lines,
    and an exception if decoding fails (an unfinished line before the failure
    is not delivered). *)
Definition complete_lines (t : str) : list str :=
  let ls := univ_lines t in
  match rev ls with
  | l :: _ => if str_endswith l LF || str_endswith l CR then ls else removelast ls
  | [] => []
  end.
Definition text_items (c : codec) (b : bytes) : list item :=
  let '(t, ok) := cd_decode c b in
  if ok then map ILine (univ_lines t)
  else map ILine (complete_lines t) ++ [IExc].

(** [fid.read(num_chars) if num_chars else fid.read()] (clevercsv/wrappers.py:95,
    277, 331, 397): [None], 0 and negative numbers read everything. *)
Definition read_chars (c : codec) (b : bytes) (num_chars : option Z) : res pyexc str :=
  let '(t, ok) := cd_decode c b in
  match num_chars with
  | Some n =>
      if (0 <? n)%Z then
        if ok || (n <=? Z.of_nat (length t))%Z then Ok (firstn (Z.to_nat n) t) else Err InputExc
      else if ok then Ok t else Err InputExc
  | None => if ok then Ok t else Err InputExc
  end.

(** Writing pieces of text to a file opened with [open(path, "w", newline="")]:
    the text that was accepted, and the exception that stopped it. *)
Fixpoint put (c : codec) (sofar : str) (chunks : list str) : str * option pyexc :=
  match chunks with
  | [] => (sofar, None)
  | t :: ts =>
      match cd_encode c (sofar ++ t) with
      | Some _ => put c (sofar ++ t) ts
      | None => (sofar, Some UnicodeEncodeError)
      end
  end.
Definition content (c : codec) (t : str) : bytes :=
  match cd_encode c t with Some b => b | None => [] end.

(** ** clevercsv/utils.py:30-50 [sha1sum]

    The hash object is abstract; [fuel] bounds the number of blocks. *)
Definition block_size : nat := N.to_nat 65536.   (* 1 << 16 *)
Section Sha.
  Context {H : Type} (update : H -> bytes -> H).
  Fixpoint sha_loop (blk fuel : nat) (h : H) (rest : bytes) : option H :=
    match fuel with
    | O => None
    | S f =>
        match firstn blk rest with
        | [] => Some h
        | buf => sha_loop blk f (update h buf) (skipn blk rest)
        end
    end.
  Definition sha1sum (h0 : H) (digest : H -> str) (file : bytes) : option str :=
    option_map digest (sha_loop block_size (S (length file)) h0 file).
End Sha.

(** ** clevercsv/encoding.py:20-64 [get_encoding]

    The chardet/cchardet detector object is abstract: [feed], [done] and the
    encoding it reports after [close()]. *)
Section Enc.
  Context {D : Type} (feed : D -> bytes -> D) (done : D -> bool).
  Fixpoint enc_loop (blk fuel : nat) (d : D) (rest : bytes) : option D :=
    match fuel with
    | O => None
    | S f =>
        if done d then Some d
        else
          let chunk := firstn blk rest in
          let d' := feed d chunk in
          if Nat.ltb (length chunk) blk then Some d'
          else enc_loop blk f d' (skipn blk rest)
    end.
  Definition get_encoding (d0 : D) (result : D -> option str) (file : bytes) : option str :=
    match enc_loop block_size (S (length file)) d0 file with
    | Some d => result d
    | None => None
    end.
End Enc.
