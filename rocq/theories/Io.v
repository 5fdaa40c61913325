(** Readers and writers: decoders are programs over [Read::read_exact], encoders are
    programs over [Write::write_all].

    A decoder is an inductive tree, so that statements about every decoder of the model
    (independence of read chunking, rejection of truncated input) are proved once, by
    induction on the tree. *)

From Verif Require Import Base.
Local Open Scope nat_scope.

(** sia/src/encoding/v2.rs:5-17, [enum Error]. The [io::Error] payload is dropped: a
    reader error is [EIo] whether it is an end of file or a failure of the device. *)
Inductive error : Type :=
| EIo
| EInvalidTimestamp
| EInvalidLength
| EInvalidValue
| ECustom (msg : string).

(** ** Decoders *)

(** A decoder: [DRead n eof k] is [r.read_exact(&mut buf)] with a buffer of [n] bytes;
    [eof] is the error returned when that fails ([EIo], unless the code maps it).
    [DAlloc size k] is a [Vec::with_capacity] that asks the allocator for [size] bytes. *)
Inductive dec (A : Type) : Type :=
| DRet (a : A)
| DErr (e : error)
| DPanic (p : panic)
| DRead (n : nat) (eof : error) (k : bytes -> dec A)
| DAlloc (size : N) (k : dec A).
Arguments DRet {A} a.
Arguments DErr {A} e.
Arguments DPanic {A} p.
Arguments DRead {A} n eof k.
Arguments DAlloc {A} size k.

(** Sequencing, Rust's [?] followed by the rest of the function. *)
Fixpoint dbind {A B} (m : dec A) (f : A -> dec B) : dec B :=
  match m with
  | DRet a => f a
  | DErr e => DErr e
  | DPanic p => DPanic p
  | DRead n e k => DRead n e (fun bs => dbind (k bs) f)
  | DAlloc z k => DAlloc z (dbind k f)
  end.

Declare Scope dec_scope.
Delimit Scope dec_scope with dec.
Notation "x <- m ;; k" := (dbind m (fun x => k))
  (at level 61, m at next level, right associativity) : dec_scope.

(** Rust's [Result::map_err] with a constant error. *)
Fixpoint dmap_err {A} (e' : error) (m : dec A) : dec A :=
  match m with
  | DRet a => DRet a
  | DErr _ => DErr e'
  | DPanic p => DPanic p
  | DRead n _ k => DRead n e' (fun bs => dmap_err e' (k bs))
  | DAlloc z k => DAlloc z (dmap_err e' k)
  end.

Definition dret_opt {A} (e : error) (o : option A) : dec A :=
  match o with Some a => DRet a | None => DErr e end.

(** [for _ in 0..n { s = step(s)? }], by recursion on the binary representation of [n]
    so that a huge [n] costs nothing when the first iterations fail. *)
Fixpoint dloop_pos {S} (p : positive) (step : S -> dec S) (s : S) : dec S :=
  match p with
  | xH => step s
  | xO p => dbind (dloop_pos p step s) (dloop_pos p step)
  | xI p => dbind (dbind (step s) (dloop_pos p step)) (dloop_pos p step)
  end.

Definition dloop {S} (n : N) (step : S -> dec S) (s : S) : dec S :=
  match n with N0 => DRet s | Npos p => dloop_pos p step s end.

(** *** Interpretation over a byte string (the reader is a [&[u8]]) *)

Inductive result (A : Type) : Type :=
| ROk (a : A) (rest : bytes)
| RErr (e : error)
| RPanic (p : panic).
Arguments ROk {A} a rest.
Arguments RErr {A} e.
Arguments RPanic {A} p.

(** The first [n] bytes and the rest, if there are that many. *)
Fixpoint splitn (n : nat) (bs : bytes) : option (bytes * bytes) :=
  match n with
  | O => Some ([], bs)
  | S n' => match bs with
            | [] => None
            | b :: r => match splitn n' r with
                        | Some (x, y) => Some (b :: x, y)
                        | None => None
                        end
            end
  end.

Fixpoint run {A} (d : dec A) (bs : bytes) : result A :=
  match d with
  | DRet a => ROk a bs
  | DErr e => RErr e
  | DPanic p => RPanic p
  | DRead n e k => match splitn n bs with
                   | Some (x, rest) => run (k x) rest
                   | None => RErr e
                   end
  | DAlloc _ k => run k bs
  end.

(** The bytes that the decoder asks the allocator for on the way, in this order. *)
Fixpoint requests {A} (d : dec A) (bs : bytes) : list N :=
  match d with
  | DRead n _ k => match splitn n bs with
                   | Some (x, rest) => requests (k x) rest
                   | None => []
                   end
  | DAlloc z k => z :: requests k bs
  | _ => []
  end.

(** *** Interpretation over an adversarial reader *)

(** What successive calls of [Read::read] do: deliver up to [1 + length bs] bytes, fail
    with [ErrorKind::Interrupted], or fail with another error. After the last event the
    reader is at end of file. *)
Inductive revent : Type :=
| RData (b : byte) (bs : bytes)
| RIntr
| RFail.

Definition reader := list revent.

(** All the bytes the reader has to offer. *)
Fixpoint rbytes (r : reader) : bytes :=
  match r with
  | [] => []
  | RData b bs :: r' => b :: bs ++ rbytes r'
  | RIntr :: r' => rbytes r'
  | RFail :: r' => rbytes r'
  end.

(** The reader never fails (short reads and interruptions are allowed). *)
Definition reliable (r : reader) : Prop := ~ In RFail r.

(** The bytes delivered before the first failure. *)
Fixpoint before_fail (r : reader) : reader :=
  match r with
  | [] => []
  | RFail :: _ => []
  | e :: r' => e :: before_fail r'
  end.

(** [Read::read_exact] of the standard library: loop on [read] until the buffer is full,
    retrying on [Interrupted]; end of file or any other error makes it fail. *)
Fixpoint read_exact (need : nat) (r : reader) : option (bytes * reader) :=
  match need with
  | O => Some ([], r)
  | S _ =>
    match r with
    | [] => None
    | RIntr :: r' => read_exact need r'
    | RFail :: _ => None
    | RData b bs :: r' =>
      let chunk := b :: bs in
      if Nat.leb (length chunk) need then
        match read_exact (need - length chunk) r' with
        | Some (x, r'') => Some (chunk ++ x, r'')
        | None => None
        end
      else
        match skipn need chunk with
        | [] => Some (firstn need chunk, r')
        | b' :: bs' => Some (firstn need chunk, RData b' bs' :: r')
        end
    end
  end.

Inductive rresult (A : Type) : Type :=
| CkOk (a : A) (rest : reader)
| CkErr (e : error)
| CkPanic (p : panic).
Arguments CkOk {A} a rest.
Arguments CkErr {A} e.
Arguments CkPanic {A} p.

Fixpoint run_reader {A} (d : dec A) (r : reader) : rresult A :=
  match d with
  | DRet a => CkOk a r
  | DErr e => CkErr e
  | DPanic p => CkPanic p
  | DRead n e k => match read_exact n r with
                   | Some (x, r') => run_reader (k x) r'
                   | None => CkErr e
                   end
  | DAlloc _ k => run_reader k r
  end.

(** What an observer sees of the two interpretations. *)
Definition observe_flat {A} (x : result A) : option (A * bytes) + (error + panic) :=
  match x with
  | ROk a rest => inl (Some (a, rest))
  | RErr e => inr (inl e)
  | RPanic p => inr (inr p)
  end.

Definition observe_reader {A} (x : rresult A) : option (A * bytes) + (error + panic) :=
  match x with
  | CkOk a rest => inl (Some (a, rbytes rest))
  | CkErr e => inr (inl e)
  | CkPanic p => inr (inr p)
  end.

(** ** Encoders *)

(** One step of an encoder: [write_all(b)?], [write_all(b).unwrap()], or a panic. *)
Inductive wop : Type :=
| WAll (b : bytes)
| WAllUnwrap (b : bytes)
| WPanic (p : panic).

Definition wprog := list wop.

Definition write_all (b : bytes) : wprog := [WAll b].

(** [encode(w).unwrap()] *)
Definition wunwrap (p : wprog) : wprog :=
  map (fun o => match o with WAll b => WAllUnwrap b | o => o end) p.

(** The bytes an infallible sink (a [Vec<u8>] or a hash state) receives. *)
Fixpoint wbytes (p : wprog) : bytes :=
  match p with
  | [] => []
  | WAll b :: r => b ++ wbytes r
  | WAllUnwrap b :: r => b ++ wbytes r
  | WPanic _ :: _ => []
  end.

(** The encoder propagates every error and has no panicking step. *)
Definition propagates (p : wprog) : Prop := Forall (fun o => exists b, o = WAll b) p.

(** The encoder reaches no panicking step on an infallible sink. *)
Definition no_wpanic (p : wprog) : Prop := Forall (fun o => forall q, o <> WPanic q) p.

(** *** Interpretation over an adversarial writer *)

(** What successive calls of [Write::write] on a non-empty buffer do: accept at most
    [S n] bytes, fail with [Interrupted], return [Ok(0)], or fail. After the last event
    the writer accepts everything. *)
Inductive wevent : Type :=
| WAccept (n : nat)
| WIntr
| WZero
| WFail.

Definition writer := list wevent.

Definition wreliable (w : writer) : Prop := ~ In WZero w /\ ~ In WFail w.

(** [Write::write_all] of the standard library; [Ok(0)] is turned into an error. Returns
    the bytes that reached the device, whether it succeeded, and the writer. *)
Fixpoint write_all_to (w : writer) (b : bytes) : bytes * bool * writer :=
  match b with
  | [] => ([], true, w)
  | _ :: _ =>
    match w with
    | [] => (b, true, [])
    | WIntr :: w' => write_all_to w' b
    | WZero :: w' => ([], false, w')
    | WFail :: w' => ([], false, w')
    | WAccept n :: w' =>
      let '(x, ok, w'') := write_all_to w' (skipn (S n) b) in
      (firstn (S n) b ++ x, ok, w'')
    end
  end.

Inductive wstatus : Type := WSOk | WSErr | WSPanic (p : panic).

Fixpoint run_writer (p : wprog) (w : writer) : bytes * wstatus :=
  match p with
  | [] => ([], WSOk)
  | WAll b :: r =>
    let '(x, ok, w') := write_all_to w b in
    if ok then let '(y, st) := run_writer r w' in (x ++ y, st) else (x, WSErr)
  | WAllUnwrap b :: r =>
    let '(x, ok, w') := write_all_to w b in
    if ok then let '(y, st) := run_writer r w' in (x ++ y, st) else (x, WSPanic UnwrapNone)
  | WPanic q :: _ => ([], WSPanic q)
  end.
