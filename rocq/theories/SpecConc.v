(** Two threads of one process running the assembly at the same time: the instructions
    of the two interleave in any order and act on one memory, each thread with its own
    registers. *)
From Coq Require Import ZArith String List Bool.
From Verif Require Import Base SpecSha ModelX86 ModelImage SpecAsm.
Import ListNotations.
Open Scope list_scope.
Open Scope Z_scope.

Section Threads.
Variables readable writable : Z -> bool.
Variable sect : nat -> Z.

(** One instruction of a thread (the memory in [st] is not used). A thread that has
    left the assembly does nothing more to its buffers. *)
Definition thread_step (st : state) (m : Z -> Z) : option (state * (Z -> Z)) :=
  match fetch image (pc st) with
  | None => Some (st, m)
  | Some _ => option_map (fun st' => (st', mem st')) (step readable writable sect image (setm m st))
  end.
(** A schedule says which thread runs next, [true] for the first. *)
Fixpoint interleave (schedule : list bool) (a b : state) (m : Z -> Z) : option (state * state * (Z -> Z)) :=
  match schedule with
  | [] => Some (a, b, m)
  | true :: r => obind (thread_step a m) (fun p => interleave r (fst p) b (snd p))
  | false :: r => obind (thread_step b m) (fun p => interleave r a (fst p) (snd p))
  end.
End Threads.

Definition turns (who : bool) (schedule : list bool) : nat := length (filter (Bool.eqb who) schedule).

(** The areas a call uses. *)
Definition used (sect : nat -> Z) (f : routine) (n : Z) (st : state) : list area :=
  read_only sect (r_consts f) n st ++ owned sect (r_scratch f) (r_depth f) n st.
(** Nothing that the call [f] owns is used by the call [g]. *)
Definition keeps_off (sect : nat -> Z) (f : routine) (n : Z) (a : state) (g : routine) (k : Z) (b : state) : Prop :=
  Forall (fun x => Forall (apart x) (used sect g k b)) (owned sect (r_scratch f) (r_depth f) n a).

(** Stack, output and input of a call: what the caller chooses. *)
Definition buffers (f : routine) (n : Z) (st : state) : list area :=
  [(getr st rsp - r_depth f, r_depth f + 8); (getr st rdi, 32 * n); (getr st rsi, 64 * n)].

(** ** Any number of threads, each making any number of calls

    Between two calls a thread runs other code ([j_before], which also pushes the
    return address); [j_state] gives the registers at the first instruction of the
    routine. *)
Record job : Type := {
  j_routine : routine;
  j_count : Z;
  j_state : state;
  j_before : (Z -> Z) -> (Z -> Z) }.
Record thread : Type := { t_state : state; t_todo : list job }.

Section Many.
Variables readable writable : Z -> bool.
Variable sect : nat -> Z.

(** One turn of a thread: an instruction of the assembly, or the code up to its next
    call; a thread that has nothing left to do does nothing. *)
Definition turn (t : thread) (m : Z -> Z) : option (thread * (Z -> Z)) :=
  match fetch image (pc (t_state t)) with
  | Some _ =>
      option_map (fun st' => ({| t_state := st'; t_todo := t_todo t |}, mem st'))
        (step readable writable sect image (setm m (t_state t)))
  | None =>
      match t_todo t with
      | [] => Some (t, m)
      | j :: r => Some ({| t_state := j_state j; t_todo := r |}, j_before j m)
      end
  end.
(** A schedule says whose turn it is. *)
Fixpoint turns_taken (schedule : list nat) (ts : list thread) (m : Z -> Z) : option (list thread * (Z -> Z)) :=
  match schedule with
  | [] => Some (ts, m)
  | i :: r =>
      match nth_error ts i with
      | None => turns_taken r ts m
      | Some t => obind (turn t m) (fun p => turns_taken r (upd ts i (fst p)) (snd p))
      end
  end.
End Many.

Definition bytes_mem (m : Z -> Z) : Prop := forall x, 0 <= m x < 256.

(** A thread that keeps its data in [private] and reads also [shared], started with
    memory [m]. *)
Record job_ok (sect : nat -> Z) (private shared : Z -> bool) (m : Z -> Z) (j : job) : Prop := {
  J_routine : In (j_routine j) [sha256_1_avx; sha256_4_avx; sha256_8_avx2; sha256_shani];
  J_one : j_routine j = sha256_1_avx -> j_count j = 1;
  J_count : j_routine j = sha256_1_avx \/ getr (j_state j) rdx = j_count j;
  J_entry : find_label (r_name (j_routine j)) image 0 = Some (pc (j_state j));
  J_call : call (fun x => private x || shared x) private sect (r_consts (j_routine j)) (r_scratch (j_routine j))
             (r_depth (j_routine j)) (j_count j) (setm m (j_state j));
  J_consts : Forall (fun s => forall x, inside x (section_area sect s) -> shared x = true) (r_consts (j_routine j));
  (* the code before the call keeps to the thread's data, and the return address is
     not in the assembly *)
  J_keeps : forall m' x, private x = false -> j_before j m' x = m' x;
  J_reads : forall m1 m2, (forall x, private x || shared x = true -> m1 x = m2 x) ->
            forall x, private x = true -> j_before j m1 x = j_before j m2 x;
  J_bytes : forall m', bytes_mem m' -> bytes_mem (j_before j m');
  J_return : forall m', bytes_mem m' ->
             fetch image (le_val (bytes_at (j_before j m') (getr (j_state j) rsp) 8)) = None }.

(** What a thread on its own does to the memory: each call leaves the digests of its
    input in its output and otherwise only changes what the routine owns. *)
Inductive served (sect : nat -> Z) : list job -> (Z -> Z) -> (Z -> Z) -> Prop :=
| served_nil : forall m, served sect [] m m
| served_job : forall j r m m1 m2,
    (forall i, 0 <= i < j_count j ->
       bytes_at m1 (getr (j_state j) rdi + 32 * i) 32
       = sha256 (bytes_at (j_before j m) (getr (j_state j) rsi + 64 * i) 64)) ->
    (forall x, Forall (fun a => ~ inside x a)
       (owned sect (r_scratch (j_routine j)) (r_depth (j_routine j)) (j_count j) (j_state j)) ->
       m1 x = j_before j m x) ->
    served sect r m1 m2 ->
    served sect (j :: r) m m2.
