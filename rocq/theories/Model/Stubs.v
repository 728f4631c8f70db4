(** Model of tls_pipe.c: the stubs in the network process that ask the key process
    (tls_pipe_getcert is in Choose.v).

    Simplifications: log output is omitted; the session fields of BearSSL's engine and the
    record type are parameters; a record buffer is an object [mem] with the record at
    [base]; integer objects have their little-endian representation (x86, ARM). *)
From Verif.Model Require Import Base Sys Io Str Buffer Pem Choose.

Section STUBS.
Variables (fuel : nat) (tochild fromchild : Z).

(** if (pipe_write(tls_pipe_tochild, m, |m|) == -1) goto fail; once for each message *)
Fixpoint put {R} (ms : list (list Z)) (fail k : prog R) : prog R :=
  match ms with
  | [] => k
  | m :: ms => c <~ pipe_write fuel tochild m (len m) ;; match c with Good => put ms fail k | Fail _ => fail end
  end.

(** An unsigned integer object of [n] bytes. *)
Definition object (n : nat) (v : Z) : list Z := pack_loop n (v mod 256 ^ Z.of_nat n).

(** tls_pipe.c:78-101; [R] is the destination; result: length and buffer *)
Definition tls_pipe_mulgen (R : list Z) (curve : Z) : prog (Z * list Z) :=
  put [[]; [u8 curve]] (Ret (0, R))
    ('(c, R, Glen) <~ pipe_readmax fuel fromchild R 133 ;;
     match c with Good => Ret (Glen, R) | Fail _ => Ret (0, R) end).

(** tls_pipe.c:115-140; [data] is the buffer, its first [n] bytes the digest *)
Definition tls_pipe_dosign (algo_id : Z) (data : list Z) (n max : Z) : prog (Z * list Z) :=
  put [[Z.land algo_id 255]; object 8 max; firstn (Z.to_nat n) data] (Ret (0, data))
    ('(c, data, max) <~ pipe_readmax fuel fromchild data max ;;
     match c with Good => Ret (max, data) | Fail _ => Ret (0, data) end).

(** tls_pipe.c:154-187; the point and the session fields *)
Definition tls_pipe_mul (G session_id : list Z) (version cipher_suite : Z) (client_random server_random : list Z) : prog Z :=
  put [G; session_id; object 2 version; object 2 cipher_suite; client_random; server_random] (Ret 0) (Ret 1).

(** tls_pipe.c:207-234; [dst] has [n] bytes; the seed chunks *)
Definition tls_pipe_prf (dst : list Z) (n : Z) (label : list Z) (seed : list (list Z)) : prog (list Z) :=
  let randomoutput := (r <~ randombytes (Z.to_nat n) ;; Ret r) in
  d1 <~ lift (str_diff label (bs "client finished" ++ [0])) ;;
  d2 <~ (if negb (d1 =? 0) then lift (str_diff label (bs "server finished" ++ [0])) else Ret 0) ;;
  if negb (d1 =? 0) && negb (d2 =? 0) then randomoutput
  else
    match seed with
    | [s] =>
        l <~ lift (str_len label) ;;
        put [[0]; firstn (Z.to_nat (l + 1)) label; object 8 (len s); s] randomoutput
          ('(c, dst) <~ pipe_readall fuel fromchild dst n ;;
           match c with Good => Ret dst | Fail _ => randomoutput end)
    | _ => randomoutput
    end.

Definition schar (b : Z) : Z := if b <? 128 then b else b - 256.

(** The end of object [mem] from position [i] on. *)
Definition at_ (mem : list Z) (i : Z) : res (list Z) :=
  if (i <? 0) || (len mem <? i) then UB else Ok (skipn (Z.to_nat i) mem).

(** tls_pipe.c:301-323; result: [None], or position and length of the plain text, and
    the object *)
Definition decrypt (record_type version : Z) (mem : list Z) (base n : Z) : prog (option (Z * Z) * list Z) :=
  data <~ lift (at_ mem base) ;;
  put [[1]; object 4 record_type; object 4 version; firstn (Z.to_nat n) data] (Ret (None, mem))
    ('(c, o) <~ pipe_readall fuel fromchild [0] 1 ;;
     match c with
     | Fail _ => Ret (None, mem)
     | Good =>
         let offset := schar (nth 0 o 0) in
         if (offset <? -64) || (64 <? offset) then Ret (None, mem)
         else
           d <~ lift (at_ mem (base + offset)) ;;
           '(c, d, n) <~ pipe_readmax fuel fromchild d n ;;
           let mem := firstn (Z.to_nat (base + offset)) mem ++ d in
           match c with
           | Fail _ => Ret (None, mem)
           | Good => if n =? 0 then Ret (None, mem) else Ret (Some (base + offset, n), mem)
           end
     end).

(** randombytes(datav, n) *)
Definition scramble (mem : list Z) (base n : Z) : prog (list Z) :=
  r <~ randombytes (Z.to_nat n) ;; lift (copyin mem base r n).

(** tls_pipe.c:383-407 *)
Definition encrypt (record_type version : Z) (mem : list Z) (base n : Z) : prog (option (Z * Z) * list Z) :=
  let cleanup mem n := (mem <~ scramble mem base n ;; Ret (None, mem)) in
  data <~ lift (at_ mem base) ;;
  put [[2]; object 4 record_type; object 4 version; firstn (Z.to_nat n) data] (cleanup mem n)
    (let n := n + 85 in
     '(c, o) <~ pipe_readall fuel fromchild [0] 1 ;;
     match c with
     | Fail _ => cleanup mem n
     | Good =>
         let offset := schar (nth 0 o 0) in
         if (offset <? -64) || (64 <? offset) then cleanup mem n
         else
           d <~ lift (at_ mem (base + offset)) ;;
           '(c, d, n) <~ pipe_readmax fuel fromchild d n ;;
           let mem := firstn (Z.to_nat (base + offset)) mem ++ d in
           match c with
           | Fail _ => cleanup mem n
           | Good => Ret (Some (base + offset, n), mem)
           end
     end).

(** ** The stub calls as one type *)
Inductive call : Type :=
| Getcert (fn : list Z)
| Mulgen (R : list Z) (curve : Z)
| Dosign (algo_id : Z) (data : list Z) (n max : Z)
| Mul (G session_id : list Z) (version cipher_suite : Z) (client_random server_random : list Z)
| Prf (dst : list Z) (n : Z) (label : list Z) (seed : list (list Z))
| Decrypt (record_type version : Z) (mem : list Z) (base n : Z)
| Encrypt (record_type version : Z) (mem : list Z) (base n : Z).

(** What the caller learns: a number (0 for failure; for tls_pipe_getcert the key type, or
    minus errno) and bytes. *)
Definition answer : Type := (Z * list Z)%type.
Definition record_answer (z : option (Z * Z) * list Z) : answer :=
  match z with (None, _) => (0, []) | (Some (p, k), mem) => (1, firstn (Z.to_nat k) (skipn (Z.to_nat p) mem)) end.
Definition stub (c : call) : prog answer :=
  match c with
  | Getcert fn => x <~ tls_pipe_getcert fuel tochild fromchild fn ;; Ret (match x with inl e => (- e, []) | inr (kt, chain) => (kt, chain) end)
  | Mulgen R curve => tls_pipe_mulgen R curve
  | Dosign a d n m => tls_pipe_dosign a d n m
  | Mul G si v cs cr sr => x <~ tls_pipe_mul G si v cs cr sr ;; Ret (x, [])
  | Prf dst n label seed => x <~ tls_pipe_prf dst n label seed ;; Ret (1, x)
  | Decrypt t v mem base n => x <~ decrypt t v mem base n ;; Ret (record_answer x)
  | Encrypt t v mem base n => x <~ encrypt t v mem base n ;; Ret (record_answer x)
  end.

(** The TLS engine, as far as the stubs see it: calls that depend on earlier answers. *)
Inductive client : Type := Leave | Ask (c : call) (k : answer -> client).
Fixpoint client_run (cl : client) : prog unit :=
  match cl with
  | Leave => Ret tt
  | Ask c k => a <~ stub c ;; client_run (k a)
  end.
End STUBS.
