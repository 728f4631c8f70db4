(** Programs that talk to the operating system.

    A modelled C function with system calls is a term of type [prog R]: it either
    returns, or performs one call and continues with the answer.  The answer is not
    computed by the model; theorems quantify over all answers (all traces).

    Outcomes of a run:
    - [Fin r]   the function returned [r];
    - [Wrong]   undefined behaviour;
    - [Cut]     observation stopped before the function returned (a blocking call
                without answer, or the loop bound of the model was reached).  Since
                every theorem is for all loop bounds, a property proved for runs
                ending in [Cut] holds at every moment of an endless execution. *)
From Verif.Model Require Import Base.

(** System calls and library services used by the modelled code.  Arguments that do
    not matter for any modelled behaviour are dropped; each use cites the C line. *)
Inductive sys : Type :=
| Read (fd n : Z)                 (* read(fd, buf, n) *)
| Write (fd : Z) (b : list Z)     (* write(fd, b, |b|) *)
| Poll (fds : list (Z * Z)) (timeout : Z)  (* poll / jail_poll: (fd, events) *)
| Alloc (n : Z)                   (* alloc(n); ret 0 = NULL *)
| Time                            (* clock reading in ret *)
| Select (nfds : Z) (rd wr : list Z) (us : option Z)
    (* select; time in microseconds, None = wait forever.  In the data of the answer [fd]
       stands for "fd is readable", [-1 - fd] for "fd is writable". *)
| Close (fd : Z)
| Shutdown (fd how : Z)
| Other (name : list Z) (args : list Z) (data : list Z).  (* any other service, by C name *)

(** Answer: return value, errno if the call failed, data delivered. *)
Record ans : Type := mkans { ret : Z; err : Z; data : list Z }.

Definition event : Type := (sys * ans)%type.
Definition trace : Type := list event.

Inductive prog (R : Type) : Type :=
| Ret (r : R)
| Do (c : sys) (k : ans -> prog R)
| Bad
| Halt.
Arguments Ret {R} _.
Arguments Do {R} _ _.
Arguments Bad {R}.
Arguments Halt {R}.

Fixpoint pbind {A B} (p : prog A) (f : A -> prog B) : prog B :=
  match p with
  | Ret a => f a
  | Do c k => Do c (fun x => pbind (k x) f)
  | Bad => Bad
  | Halt => Halt
  end.

Declare Scope prog_scope.
Delimit Scope prog_scope with prog.
Notation "x <~ e ;; f" := (pbind e (fun x => f))
  (at level 61, e at next level, right associativity) : prog_scope.
Notation "' p <~ e ;; f" := (pbind e (fun p => f))
  (at level 61, p pattern, e at next level, right associativity) : prog_scope.
Open Scope prog_scope.

Definition sys1 (c : sys) : prog ans := Do c Ret.

(** A function without system calls. *)
Definition lift {A} (x : res A) : prog A :=
  match x with Ok a => Ret a | UB => Bad | Fuel => Halt end.

Inductive outcome (R : Type) : Type := Fin (r : R) | Wrong | Cut.
Arguments Fin {R} _.
Arguments Wrong {R}.
Arguments Cut {R}.

(** [runs p tr o]: [p] can perform exactly the calls of [tr], getting the answers in
    [tr], with outcome [o]. *)
Fixpoint runs {R} (p : prog R) (tr : trace) (o : outcome R) : Prop :=
  match p with
  | Ret r => tr = [] /\ o = Fin r
  | Bad => tr = [] /\ o = Wrong
  | Halt => tr = [] /\ o = Cut
  | Do c k => (tr = [] /\ o = Cut) \/
              (exists a tr', tr = (c, a) :: tr' /\ runs (k a) tr' o)
  end.

(** Executable version for examples: answers are taken from a script. *)
Fixpoint exec {R} (p : prog R) (script : list ans) : trace * outcome R :=
  match p with
  | Ret r => ([], Fin r)
  | Bad => ([], Wrong)
  | Halt => ([], Cut)
  | Do c k => match script with
              | [] => ([], Cut)
              | a :: script' => let '(tr, o) := exec (k a) script' in ((c, a) :: tr, o)
              end
  end.

(** errno values (Linux). *)
Definition ENOENT : Z := 2.
Definition EINTR : Z := 4.
Definition EAGAIN : Z := 11.
Definition ENOMEM : Z := 12.
Definition EINVAL : Z := 22.
Definition EPIPE : Z := 32.
Definition EPROTO : Z := 71.
Definition ETIMEDOUT : Z := 110.

(** What the kernel guarantees about answers (POSIX). *)
Definition sys_ok (e : event) : Prop :=
  match e with
  | (Read fd n, a) => (ret a = -1 /\ data a = []) \/
                      (0 <= ret a <= n /\ len (data a) = ret a /\ bytes (data a))
  | (Write fd b, a) => ret a = -1 \/ 0 <= ret a <= len b
  | (Alloc n, a) => ret a = 0 \/ ret a = 1
  | _ => True
  end.
Definition legal (tr : trace) : Prop := Forall sys_ok tr.

(** Bytes obtained from / accepted by a descriptor during a trace. *)
Fixpoint got (fd : Z) (tr : trace) : list Z :=
  match tr with
  | [] => []
  | (Read f n, a) :: t => if f =? fd then data a ++ got fd t else got fd t
  | _ :: t => got fd t
  end.
Fixpoint sent (fd : Z) (tr : trace) : list Z :=
  match tr with
  | [] => []
  | (Write f b, a) :: t => if f =? fd then firstn (Z.to_nat (ret a)) b ++ sent fd t else sent fd t
  | _ :: t => sent fd t
  end.
