(* What a C program may rely on, stated with the Rust API (Api.v) and the list of calls made so
   far, without reference to the heap. *)
From Coq Require Import ZArith List Bool.
From Verif Require Import FArith Prelude Composition DetailModel GergModel Api Ffi.
Import ListNotations.
Local Open Scope Z_scope.

Section Spec.
Context {A : Arith}.

Definition ifield_of (f : ifield) : pfield := match f with IP => PP | IT => PT | ID => PD end.

(* the Rust statement a C call stands for, if it is more than reading fields *)
Definition rust_op (u : use) : option op :=
  match u with
  | USetComposition c => Some (SetComp c)
  | USet f v => Some (Poke (ifield_of f) v)
  | UGet _ | UGetProperties => None
  | UPressure => Some Pressure
  | UMolarMass => Some MolarMass
  | UDensity => Some (Density 0)
  | UProperties => Some Properties
  end.
Definition rust_ops (u : use) : list op :=
  match rust_op u with Some o => [o] | None => [] end.

(* What address a stands for after the calls in l (oldest first): nothing, or an object of kind e
   to which the operations ops have been applied since its creation. *)
Fixpoint owner (a : addr) (l : list call) (st : option (kind * list op)) : option (kind * list op) :=
  match l with
  | [] => st
  | c :: l => owner a l
      (match c with
       | New e (Some b) => if a =? b then Some (e, []) else st
       | New e None => st
       | Free e b => if a =? b then None else st
       | Use e b u => if a =? b then match st with
                                     | Some (k, ops) => Some (k, ops ++ rust_ops u)
                                     | None => None
                                     end
                      else st
       end)
  end.

Definition kind_at (a : addr) (l : list call) : option kind :=
  match owner a l None with Some (e, _) => Some e | None => None end.

(* A correct allocator: it does not return NULL nor the address of a live object. *)
Definition alloc_ok (l : list call) : Prop :=
  forall l1 e a l2, l = l1 ++ New e (Some a) :: l2 -> a <> null /\ owner a l1 None = None.

(* A correct C program: a call is made on a live object of the right kind; freeing NULL is fine;
   and memory has not run out. *)
Definition legal_call (l1 : list call) (c : call) : Prop :=
  match c with
  | New e m => m <> None
  | Free e p => p = null \/ kind_at p l1 = Some e
  | Use e p _ => kind_at p l1 = Some e
  end.
Definition legal (l : list call) : Prop :=
  forall l1 c l2, l = l1 ++ c :: l2 -> legal_call l1 c.

(* the object a Rust program would have after the same operations *)
Definition is_object (e : kind) (ops : list op) (o : obj) : Prop :=
  match e with
  | KDetail => exists s r, dexec Api.New ops = Some (s, r) /\ o = ODetail s
  | KGerg => exists s r, gexec Api.New ops = Some (s, r) /\ o = OGerg s
  end.

(* the error number reported through the out-parameter *)
Definition comp_number (r : result CompositionError) : Z :=
  match r with ROk => 0 | RErr CompOk => 0 | RErr Empty => 1 | RErr BadSum => 2 end.
Definition dens_number (r : result DensityError) : Z :=
  match r with ROk => 0 | RErr DensOk => 0 | RErr IterationFail => 1 | RErr PressureTooLow => 2 end.

(* What a call gives back, from the object before (s) and after (s') the operation, and the
   result o of the operation; read is "value of a public field". *)
Definition answers {S} (read : pfield -> S -> F) (u : use) (o : list out) (s' : S) (a : answer) : Prop :=
  match u with
  | USetComposition _ => exists r, o = [OComp r] /\ a = AErr (comp_number r)
  | USet _ _ => a = AUnit
  | UGet f => a = AVal (read (ifield_of f) s')
  | UGetProperties => a = AProps (mkFProperties (read PD s') (read PMM s') (read PZ s')
      (read PDpDd s') (read PD2pDd2 s') (read PDpDt s') (read PU s') (read PH s') (read PS s')
      (read PCv s') (read PCp s') (read PW s') (read PG s') (read PJt s') (read PKappa s'))
  | UPressure => exists v, o = [OVal v] /\ a = AVal v
  | UMolarMass => a = AVal (read PMM s')
  | UDensity => exists r, o = [ODens r] /\ a = AErr (dens_number r)
  | UProperties => a = AUnit
  end.

End Spec.
