(** Specification of a bounded FIFO queue shared by threads, independent of positions,
    slots and sequence numbers. *)
From Verif Require Import Base QueueModel.
From stdpp Require Import functions.

(** What a thread is doing: nothing; push called, item not in the queue yet; item in the
    queue, push not returned yet; pop called; item taken, pop not returned yet. *)
Inductive astat (V : Type) := AIdle | APush (v : V) | APushed | APop | APopped (v : V).
Arguments AIdle {V}. Arguments APush {V}. Arguments APushed {V}. Arguments APop {V}. Arguments APopped {V}.

(** A queue of at most [cap] items in which every successful push and pop happens at one
    point between call and return ([EClaim]): push appends at the end, pop takes from the
    front.  A push may be refused only if the queue is full or some pop has taken its item
    but not returned; a pop may return nothing only if the queue is empty or some push has
    put its item in but not returned. *)
Inductive aq_step {V} (cap : nat) : list V * (nat -> astat V) -> qev V -> list V * (nat -> astat V) -> Prop :=
| A_push q f i v : f i = AIdle -> aq_step cap (q, f) (ECall i (CPush v)) (q, <[i := APush v]> f)
| A_pop q f i : f i = AIdle -> aq_step cap (q, f) (ECall i CPop) (q, <[i := APop]> f)
| A_push_in q f i v : f i = APush v -> length q < cap ->
    aq_step cap (q, f) (EClaim i) (q ++ [v], <[i := APushed]> f)
| A_pop_out q f i v : f i = APop -> aq_step cap (v :: q, f) (EClaim i) (q, <[i := APopped v]> f)
| A_push_ok q f i : f i = APushed -> aq_step cap (q, f) (ERet i ROk) (q, <[i := AIdle]> f)
| A_push_full q f i v : f i = APush v -> (length q = cap \/ exists j w, f j = APopped w) ->
    aq_step cap (q, f) (ERet i (RFull v)) (q, <[i := AIdle]> f)
| A_pop_some q f i v : f i = APopped v -> aq_step cap (q, f) (ERet i (RItem v)) (q, <[i := AIdle]> f)
| A_pop_none q f i : f i = APop -> (q = [] \/ exists j, f j = APushed) ->
    aq_step cap (q, f) (ERet i REmpty) (q, <[i := AIdle]> f).

Inductive aq_steps {V} (cap : nat) : list V * (nat -> astat V) -> list (qev V) -> list V * (nat -> astat V) -> Prop :=
| AQ_nil a : aq_steps cap a [] a
| AQ_cons a e b es c : aq_step cap a e b -> aq_steps cap b es c -> aq_steps cap a (e :: es) c.

Definition aq_init {V} : list V * (nat -> astat V) := ([], fun _ => AIdle).
