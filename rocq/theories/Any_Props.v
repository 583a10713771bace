(** C62: any is type-safe and has value semantics. *)
From Verif Require Import Common CommonLemmas Any_Spec Any_Model Any_Proof.

(** Any program over any objects sees what it would see with plain values: casts, types, copies, swaps, assignments (also of a variable to
    itself), allocations and copies that throw.  It never touches a deleted holder and never deletes one twice: the model has no undefined behaviour
    where the program itself is meaningful. *)
Theorem C62_any_is_a_value (V : Type) (os : list (op V)) m rs : spec_run empty_env os = Some (m, rs) ->
  exists s, run init os = Ok (s, rs).
Proof.
  intros H. pose proof (run_rel os init empty_env rel_init) as R. rewrite H in R. destruct R as (s & E & _). eauto.
Qed.
(** A program that uses an object it does not have is the only source of undefined behaviour; the model never runs out of fuel or throws. *)
Theorem C62_undefined_only_by_misuse (V : Type) (os : list (op V)) : spec_run empty_env os = None -> run init os = UB.
Proof. intros H. pose proof (run_rel os init empty_env rel_init) as R. now rewrite H in R. Qed.
(** any_cast<T> in any reachable state: the stored value if the stored type is T, else it throws; typeid(void) if empty. *)
Theorem C62_cast (V : Type) (os : list (op V)) m rs s x : spec_run empty_env os = Some (m, rs) -> run init os = Ok (s, rs) ->
  (forall ty v, m x = Some (Some (ty, v)) ->
     (forall ty', step s (Cast ty' x) = Ok (s, if Nat.eqb ty ty' then Value v else Bad_cast)) /\ step s (Type_of x) = Ok (s, Is_type (Some ty))) /\
  (m x = Some None -> (forall ty', step s (Cast ty' x) = Ok (s, Bad_cast)) /\ step s (Type_of x) = Ok (s, Is_type None)).
Proof.
  intros H R. pose proof (run_rel os init empty_env rel_init) as G. rewrite H in G. destruct G as (s' & E & G). rewrite R in E. injection E as <-.
  split.
  - intros ty v E. pose proof (rel_some s m x _ G E) as (p & Vx & L). cbn [step]. unfold live. rewrite Vx. cbn [obind cast]. unfold deref. rewrite L.
    cbn [obind fst snd]. split; [|reflexivity]. intros ty'. now destruct (Nat.eqb ty ty').
  - intros E. pose proof (rel_some s m x _ G E) as Vx. cbn in Vx. cbn [step]. unfold live. rewrite Vx. cbn [obind cast]. auto.
Qed.
(** Copies are independent: what happens to other objects, the original included, does not change an object. *)
Theorem C62_independent (V : Type) (os os' : list (op V)) m rs s m' rs' s' x ty :
  spec_run empty_env os = Some (m, rs) -> run init os = Ok (s, rs) -> m x <> None ->
  spec_run m os' = Some (m', rs') -> run s os' = Ok (s', rs') -> (forall o, In o os' -> ~ In x (touched o)) ->
  exists r, step s (Cast ty x) = Ok (s, r) /\ step s' (Cast ty x) = Ok (s', r).
Proof.
  intros H R Hx H' R' F. pose proof (run_rel os init empty_env rel_init) as G. rewrite H in G. destruct G as (s1 & E & G). rewrite R in E. injection E as <-.
  pose proof (run_rel os' s m G) as G'. rewrite H' in G'. destruct G' as (s2 & E & G'). rewrite R' in E. injection E as <-.
  pose proof (spec_run_frame os' m m' rs' x H' F) as Em.
  pose proof (step_rel s m (Cast ty x) G) as S1. pose proof (step_rel s' m' (Cast ty x) G') as S2. cbn [spec_step] in S1, S2. rewrite Em in S2.
  destruct (m x) as [[[ty' v]|]|]; [| |congruence].
  - destruct S1 as (t1 & E1 & _), S2 as (t2 & E2 & _). eexists. split.
    + rewrite E1. cbn [step] in E1. destruct (live s x); try discriminate. cbn [obind] in E1. destruct (cast s ty a); try discriminate.
      cbn [obind] in E1. injection E1 as <- E1. reflexivity.
    + rewrite E2. cbn [step] in E2. destruct (live s' x); try discriminate. cbn [obind] in E2. destruct (cast s' ty a); try discriminate.
      cbn [obind] in E2. injection E2 as <- E2. reflexivity.
  - destruct S1 as (t1 & E1 & _), S2 as (t2 & E2 & _). exists Bad_cast. split.
    + rewrite E1. cbn [step] in E1. destruct (live s x); try discriminate. cbn [obind] in E1. destruct (cast s ty a); try discriminate.
      cbn [obind] in E1. injection E1 as <- E1. reflexivity.
    + rewrite E2. cbn [step] in E2. destruct (live s' x); try discriminate. cbn [obind] in E2. destruct (cast s' ty a); try discriminate.
      cbn [obind] in E2. injection E2 as <- E2. reflexivity.
Qed.
(** No leak: every holder that is not deleted belongs to one object, so none is left when all objects are destroyed. *)
Theorem C62_no_leak (V : Type) (os : list (op V)) s rs : run init os = Ok (s, rs) ->
  (forall p ty v, heap s p = Live ty v -> exists x, vars s x = Some (Some p) /\ forall y, vars s y = Some (Some p) -> y = x) /\
  ((forall x, vars s x = None) -> forall p ty v, heap s p <> Live ty v).
Proof.
  intros R. pose proof (run_rel os init empty_env rel_init) as G. destruct (spec_run empty_env os) as [[m rs']|]; [|congruence].
  destruct G as (s' & E & G). rewrite R in E. injection E as <- <-. destruct G as [H1 H2 H3 H4]. split.
  - intros p ty v L. destruct (H3 p ty v L) as (x & Hx). exists x. split; [exact Hx|]. intros y Hy. now apply (H2 y x p).
  - intros N p ty v L. destruct (H3 p ty v L) as (x & Hx). rewrite N in Hx. discriminate.
Qed.

Definition demo : list (op nat) :=
  [From false 0 7 42; Copy false 1 0; Assign false 0 8 5; Cast 7 1; Cast 7 0; Cast 8 0; Swap 0 1; Cast 7 0; AssignAny false 0 0; Cast 7 0;
   AssignAny true 0 1; Cast 7 0; Default 2; Type_of 2; AssignAny false 1 2; Type_of 1; Cast 8 1; Destroy 0; Destroy 1; Destroy 2].
Example C62_value_nonvacuous : option_map snd (spec_run empty_env demo) =
  Some [Done; Done; Done; Value 42; Bad_cast; Value 5; Done; Value 42; Done; Value 42;
        Failed; Value 42; Done; Is_type None; Done; Is_type None; Bad_cast; Done; Done; Done].
Proof. vm_compute. reflexivity. Qed.
Example C62_heap_nonvacuous :
  match run init demo with
  | Ok (s, _) => next s = 4 /\ map (heap s) [0; 1; 2; 3; 4] = [Deleted; Deleted; Deleted; Deleted; Fresh]
  | _ => False
  end.
Proof. vm_compute. split; reflexivity. Qed.
Example C62_misuse_nonvacuous : run init [From false 0 7 42; Destroy 0; Cast 7 0] = UB /\ spec_run empty_env [From false 0 7 42; Destroy 0; Cast 7 0] = None.
Proof. split; reflexivity. Qed.
Print Assumptions C62_any_is_a_value.
Print Assumptions C62_undefined_only_by_misuse.
Print Assumptions C62_cast.
Print Assumptions C62_independent.
Print Assumptions C62_no_leak.
