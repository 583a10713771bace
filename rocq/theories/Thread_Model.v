(** Model of src/concurrent/thread.cpp.  The threads of the system are a list; a pthread_t is a position in it.  pthread_create, pthread_join and pthread_detach
    answer a number, 0 for success; using a thread that was joined or detached is UB. *)
From Verif Require Import Common Thread_Spec.
From Coq Require Import QArith Qround.
Local Open Scope Z_scope.

(** thread.cpp:57-61; a thread object that lives.  callable: f is not empty *)
Record impl := { running : bool; tid : nat; callable : bool }.
(** copies: functions on the heap, by the thread they are for *)
Record world := { obj : option impl; pool : list thr; copies : list nat }.
Definition upd (l : list thr) (i : nat) (t : thr) : list thr := firstn i l ++ t :: skipn (S i) l.
Definition with_pool (w : world) (o : impl) (p : list thr) : world := {| obj := Some o; pool := p; copies := copies w |}.

(** thread.cpp:131-147; res answers pthread_create.  A failure deletes the copy again *)
Definition start (o : impl) (res : Z) (w : world) : outcome (bool * world) :=
  if negb (callable o) then Ok (false, w) else
  if running o then Ok (false, w) else
  let t := length (pool w) in
  if negb (res =? 0) then Ok (false, {| obj := Some {| running := false; tid := 0; callable := callable o |}; pool := pool w; copies := copies w |})
  else Ok (true, {| obj := Some {| running := true; tid := t; callable := callable o |}; pool := pool w ++ [{| f := Joinable; ended := false; calls := 0 |}]; copies := t :: copies w |}).
(** thread.cpp:149-162 *)
Definition join (o : impl) (res : Z) (w : world) : outcome (bool * world) :=
  if negb (running o) then Ok (false, w) else
  match nth_error (pool w) (tid o) with
  | Some t => match f t with
              | Joinable => if negb (res =? 0) then Ok (false, w)
                            else Ok (true, with_pool w {| running := false; tid := 0; callable := callable o |} (upd (pool w) (tid o) {| f := Joined; ended := ended t; calls := calls t |}))
              | _ => UB
              end
  | None => UB
  end.
(** thread.cpp:164-176 *)
Definition detach (o : impl) (res : Z) (w : world) : outcome world :=
  if negb (running o) then Ok w else
  match nth_error (pool w) (tid o) with
  | Some t => match f t with
              | Joinable => if negb (res =? 0) then Ok w
                            else Ok (with_pool w {| running := false; tid := 0; callable := callable o |} (upd (pool w) (tid o) {| f := Detached; ended := ended t; calls := calls t |}))
              | _ => UB
              end
  | None => UB
  end.
(** thread.cpp:125-129 *)
Definition destroy (o : impl) (res : Z) (w : world) : outcome world :=
  let* w := if running o then detach o res w else Ok w in Ok {| obj := None; pool := pool w; copies := copies w |}.
(** thread.cpp:178-184, run by thread t: the function is called and its copy deleted; deleting what is not there is UB *)
Fixpoint drop (t : nat) (l : list nat) : option (list nat) :=
  match l with [] => None | x :: l => if Nat.eqb t x then Some l else match drop t l with Some l => Some (x :: l) | None => None end end.
Definition start_routine (t : nat) (w : world) : outcome world :=
  match nth_error (pool w) t with
  | Some th => match drop t (copies w) with
               | Some c => Ok {| obj := obj w; pool := upd (pool w) t {| f := f th; ended := true; calls := S (calls th) |}; copies := c |}
               | None => UB
               end
  | None => UB
  end.
(** thread.cpp:118-123, 63-66: a thread object for a function; then calls from its owner, with what the system answers, and threads that run *)
Inductive ev := Start (res : Z) | Join (res : Z) | Detach (res : Z) | Destroy (res : Z) | Run (t : nat).
Definition made (callable : bool) : world := {| obj := Some {| running := false; tid := 0; callable := callable |}; pool := []; copies := [] |}.
(** None: not a step of this program (the object is gone, or the thread has run) *)
Definition step (e : ev) (w : world) : option (outcome (option bool * world)) :=
  match e with
  | Run t => match nth_error (pool w) t with
             | Some th => if ended th then None else Some (let* w := start_routine t w in Ok (None, w))
             | None => None
             end
  | Start r => match obj w with Some o => Some (let* (b, w) := start o r w in Ok (Some b, w)) | None => None end
  | Join r => match obj w with Some o => Some (let* (b, w) := join o r w in Ok (Some b, w)) | None => None end
  | Detach r => match obj w with Some o => Some (let* w := detach o r w in Ok (None, w)) | None => None end
  | Destroy r => match obj w with Some o => Some (let* w := destroy o r w in Ok (None, w)) | None => None end
  end.

(** thread.cpp:96-107: what nanosleep is asked for; conversion of a double that time_t cannot hold is UB.  rnd rounds to double *)
Definition trunc (q : Q) : Z := if Qle_bool 0 q then Qfloor q else Qceiling q.
Definition to_int64 (q : Q) : outcome Z := let z := trunc q in if (- 2 ^ 63 <=? z) && (z <? 2 ^ 63) then Ok z else UB.
Definition max0 (d : dbl) : dbl := match d with Fin q => if Qle_bool q 0 then Fin 0 else Fin q | Inf neg => if neg then Fin 0 else Inf false | NaN => Fin 0 end.
Definition sleep_request (rnd : Q -> Q) (sec : dbl) : outcome (Z * Z) :=
  match max0 sec with
  | Fin q =>
      let* s := to_int64 q in
      let tv_sec := Z.max 0 s in
      let* n := to_int64 (rnd (rnd (q - rnd (inject_Z tv_sec)) * 1000000000)%Q) in
      Ok (tv_sec, Z.max 0 (Z.min 999999999 n))
  | _ => UB
  end.
