(* src/ffi.rs: the C interface.  A C program holds raw pointers to boxed objects; the heap maps
   an address to the object living there.

   Simplifications: a call on a dangling pointer, or on a pointer to an object of the other kind,
   is undefined behaviour and is modelled by the outcome UB; the references `composition` and
   `_err` are taken to be valid (a null reference is undefined behaviour in the caller); a failed
   allocation ends the process (New with None).  A panic cannot unwind out of an extern "C"
   function: it ends the process, too (outcome Panicked).  A C enum value is its discriminant. *)
From Coq Require Import ZArith List Bool.
From Verif Require Import FArith Prelude Composition DetailModel GergModel.
Import ListNotations.
Local Open Scope Z_scope.

Definition addr := Z.
Definition null : addr := 0.

(* src/composition.rs:178-187  #[repr(C)] discriminants of CompositionError *)
Definition comp_code (e : CompositionError) : Z :=
  match e with CompOk => 0 | Empty => 1 | BadSum => 2 end.
(* src/lib.rs:70-81  #[repr(C)] discriminants of DensityError *)
Definition dens_code (e : DensityError) : Z :=
  match e with DensOk => 0 | IterationFail => 1 | PressureTooLow => 2 end.

(* src/ffi.rs:6-41  struct Properties *)
Record FProperties {A : Arith} := mkFProperties {
  fp_d : F; fp_mm : F; fp_z : F; fp_dp_dd : F; fp_d2p_dd2 : F; fp_dp_dt : F; fp_u : F; fp_h : F;
  fp_s : F; fp_cv : F; fp_cp : F; fp_w : F; fp_g : F; fp_jt : F; fp_kappa : F }.
Arguments mkFProperties {A}.

Section Ffi.
Context {A : Arith}.

Inductive obj := ODetail (s : Detail) | OGerg (s : Gerg).
Definition heap := addr -> option obj.
Definition empty_heap : heap := fun _ => None.
Definition hset (h : heap) (a : addr) (o : option obj) : heap :=
  fun b => if b =? a then o else h b.

Inductive outcome (X : Type) : Type := Ret (h : heap) (x : X) | Panicked | UB.
Arguments Ret {X} h x.
Arguments Panicked {X}.
Arguments UB {X}.

(* Box::into_raw(Box::new(o)); m is the address the allocator returns *)
Definition box_new (m : option addr) (o : option obj) (h : heap) : outcome addr :=
  match m, o with
  | Some a, Some o => Ret (hset h a (Some o)) a
  | _, _ => Panicked
  end.

(* assert!(!ptr.is_null()); let aga8 = &mut *ptr; body *)
Definition with_detail {X} (h : heap) (p : addr) (body : Detail -> option (Detail * X)) : outcome X :=
  if p =? null then Panicked
  else match h p with
       | Some (ODetail s) => match body s with
                             | Some (s, x) => Ret (hset h p (Some (ODetail s))) x
                             | None => Panicked
                             end
       | _ => UB
       end.
Definition with_gerg {X} (h : heap) (p : addr) (body : Gerg -> option (Gerg * X)) : outcome X :=
  if p =? null then Panicked
  else match h p with
       | Some (OGerg s) => match body s with
                           | Some (s, x) => Ret (hset h p (Some (OGerg s))) x
                           | None => Panicked
                           end
       | _ => UB
       end.

(* src/ffi.rs:53-55 *)
Definition aga8_new (m : option addr) (h : heap) : outcome addr :=
  box_new m (s <- detail_new ;; Some (ODetail s)) h.
(* src/ffi.rs:61-66 *)
Definition aga8_free (p : addr) (h : heap) : outcome unit :=
  if p =? null then Ret h tt
  else match h p with
       | Some (ODetail _) => Ret (hset h p None) tt
       | _ => UB
       end.
(* src/ffi.rs:71-83; the value is what is stored in *_err *)
Definition aga8_set_composition (p : addr) (c : Composition) (h : heap) : outcome Z :=
  with_detail h p (fun s =>
    '(s, r) <- set_composition c s ;;
    Some (s, comp_code (match r with ROk => CompOk | RErr e => e end))).
(* src/ffi.rs:88-92 *)
Definition aga8_set_pressure (p : addr) (v : F) (h : heap) : outcome unit :=
  with_detail h p (fun s => Some (set_d_p v s, tt)).
(* src/ffi.rs:97-101 *)
Definition aga8_get_pressure (p : addr) (h : heap) : outcome F :=
  with_detail h p (fun s => Some (s, d_p s)).
(* src/ffi.rs:106-110 *)
Definition aga8_set_temperature (p : addr) (v : F) (h : heap) : outcome unit :=
  with_detail h p (fun s => Some (set_d_t v s, tt)).
(* src/ffi.rs:115-119 *)
Definition aga8_get_temperature (p : addr) (h : heap) : outcome F :=
  with_detail h p (fun s => Some (s, d_t s)).
(* src/ffi.rs:124-128 *)
Definition aga8_set_density (p : addr) (v : F) (h : heap) : outcome unit :=
  with_detail h p (fun s => Some (set_d_d v s, tt)).
(* src/ffi.rs:133-137 *)
Definition aga8_get_density (p : addr) (h : heap) : outcome F :=
  with_detail h p (fun s => Some (s, d_d s)).
(* src/ffi.rs:142-162 *)
Definition aga8_get_properties (p : addr) (h : heap) : outcome FProperties :=
  with_detail h p (fun s => Some (s,
    mkFProperties (d_d s) (d_mm s) (d_z s) (d_dp_dd s) (d_d2p_dd2 s) (d_dp_dt s) (d_u s) (d_h s)
      (d_s s) (d_cv s) (d_cp s) (d_w s) (d_g s) (d_jt s) (d_kappa s))).
(* src/ffi.rs:167-171 *)
Definition aga8_calculate_pressure (p : addr) (h : heap) : outcome F :=
  with_detail h p pressure.
(* src/ffi.rs:176-181 *)
Definition aga8_calculate_molar_mass (p : addr) (h : heap) : outcome F :=
  with_detail h p (fun s => '(s, _) <- molar_mass s ;; Some (s, d_mm s)).
(* src/ffi.rs:186-193 *)
Definition aga8_calculate_density (p : addr) (h : heap) : outcome Z :=
  with_detail h p (fun s =>
    '(s, r) <- density s ;;
    Some (s, dens_code (match r with ROk => DensOk | RErr e => e end))).
(* src/ffi.rs:198-202 *)
Definition aga8_calculate_properties (p : addr) (h : heap) : outcome unit :=
  with_detail h p (fun s => s <- properties s ;; Some (s, tt)).

(* src/ffi.rs:215-217 *)
Definition gerg_ffi_new (m : option addr) (h : heap) : outcome addr :=
  box_new m (s <- gerg_new ;; Some (OGerg s)) h.
(* src/ffi.rs:224-229 *)
Definition gerg_ffi_free (p : addr) (h : heap) : outcome unit :=
  if p =? null then Ret h tt
  else match h p with
       | Some (OGerg _) => Ret (hset h p None) tt
       | _ => UB
       end.
(* src/ffi.rs:234-246 *)
Definition gerg_ffi_set_composition (p : addr) (c : Composition) (h : heap) : outcome Z :=
  with_gerg h p (fun s =>
    '(s, r) <- gerg_set_composition c s ;;
    Some (s, comp_code (match r with ROk => CompOk | RErr e => e end))).
(* src/ffi.rs:251-255 *)
Definition gerg_ffi_set_pressure (p : addr) (v : F) (h : heap) : outcome unit :=
  with_gerg h p (fun s => Some (set_g_p v s, tt)).
(* src/ffi.rs:260-264 *)
Definition gerg_ffi_get_pressure (p : addr) (h : heap) : outcome F :=
  with_gerg h p (fun s => Some (s, g_p s)).
(* src/ffi.rs:269-273 *)
Definition gerg_ffi_set_temperature (p : addr) (v : F) (h : heap) : outcome unit :=
  with_gerg h p (fun s => Some (set_g_t v s, tt)).
(* src/ffi.rs:278-282 *)
Definition gerg_ffi_get_temperature (p : addr) (h : heap) : outcome F :=
  with_gerg h p (fun s => Some (s, g_t s)).
(* src/ffi.rs:287-291 *)
Definition gerg_ffi_set_density (p : addr) (v : F) (h : heap) : outcome unit :=
  with_gerg h p (fun s => Some (set_g_d v s, tt)).
(* src/ffi.rs:296-300 *)
Definition gerg_ffi_get_density (p : addr) (h : heap) : outcome F :=
  with_gerg h p (fun s => Some (s, g_d s)).
(* src/ffi.rs:305-325 *)
Definition gerg_ffi_get_properties (p : addr) (h : heap) : outcome FProperties :=
  with_gerg h p (fun s => Some (s,
    mkFProperties (g_d s) (g_mm s) (g_z s) (g_dp_dd s) (g_d2p_dd2 s) (g_dp_dt s) (g_u s) (g_h s)
      (g_s s) (g_cv s) (g_cp s) (g_w s) (g_g s) (g_jt s) (g_kappa s))).
(* src/ffi.rs:330-334 *)
Definition gerg_ffi_calculate_pressure (p : addr) (h : heap) : outcome F :=
  with_gerg h p gerg_pressure.
(* src/ffi.rs:339-344 *)
Definition gerg_ffi_calculate_molar_mass (p : addr) (h : heap) : outcome F :=
  with_gerg h p (fun s => s <- gerg_molar_mass s ;; Some (s, g_mm s)).
(* src/ffi.rs:351-358 *)
Definition gerg_ffi_calculate_density (p : addr) (h : heap) : outcome Z :=
  with_gerg h p (fun s =>
    '(s, r) <- gerg_density 0 s ;;
    Some (s, dens_code (match r with ROk => DensOk | RErr e => e end))).
(* src/ffi.rs:363-367 *)
Definition gerg_ffi_calculate_properties (p : addr) (h : heap) : outcome unit :=
  with_gerg h p (fun s => '(s, _) <- gerg_properties s ;; Some (s, tt)).

(* One call from C: e says which of the two modules, the rest which function. *)
Inductive kind := KDetail | KGerg.
Inductive ifield := IP | IT | ID.
Inductive use :=
  USetComposition (c : Composition) | USet (f : ifield) (v : F) | UGet (f : ifield)
| UGetProperties | UPressure | UMolarMass | UDensity | UProperties.
Inductive call := New (e : kind) (m : option addr) | Free (e : kind) (p : addr)
| Use (e : kind) (p : addr) (u : use).
(* what comes back: return value, or the value of the error out-parameter *)
Inductive answer :=
  AUnit | APtr (a : addr) | AVal (v : F) | AErr (code : Z) | AProps (r : FProperties).

Definition omap {X Y} (f : X -> Y) (o : outcome X) : outcome Y :=
  match o with Ret h x => Ret h (f x) | Panicked => Panicked | UB => UB end.

Definition use_detail (p : addr) (u : use) (h : heap) : outcome answer :=
  match u with
  | USetComposition c => omap AErr (aga8_set_composition p c h)
  | USet IP v => omap (fun _ => AUnit) (aga8_set_pressure p v h)
  | USet IT v => omap (fun _ => AUnit) (aga8_set_temperature p v h)
  | USet ID v => omap (fun _ => AUnit) (aga8_set_density p v h)
  | UGet IP => omap AVal (aga8_get_pressure p h)
  | UGet IT => omap AVal (aga8_get_temperature p h)
  | UGet ID => omap AVal (aga8_get_density p h)
  | UGetProperties => omap AProps (aga8_get_properties p h)
  | UPressure => omap AVal (aga8_calculate_pressure p h)
  | UMolarMass => omap AVal (aga8_calculate_molar_mass p h)
  | UDensity => omap AErr (aga8_calculate_density p h)
  | UProperties => omap (fun _ => AUnit) (aga8_calculate_properties p h)
  end.
Definition use_gerg (p : addr) (u : use) (h : heap) : outcome answer :=
  match u with
  | USetComposition c => omap AErr (gerg_ffi_set_composition p c h)
  | USet IP v => omap (fun _ => AUnit) (gerg_ffi_set_pressure p v h)
  | USet IT v => omap (fun _ => AUnit) (gerg_ffi_set_temperature p v h)
  | USet ID v => omap (fun _ => AUnit) (gerg_ffi_set_density p v h)
  | UGet IP => omap AVal (gerg_ffi_get_pressure p h)
  | UGet IT => omap AVal (gerg_ffi_get_temperature p h)
  | UGet ID => omap AVal (gerg_ffi_get_density p h)
  | UGetProperties => omap AProps (gerg_ffi_get_properties p h)
  | UPressure => omap AVal (gerg_ffi_calculate_pressure p h)
  | UMolarMass => omap AVal (gerg_ffi_calculate_molar_mass p h)
  | UDensity => omap AErr (gerg_ffi_calculate_density p h)
  | UProperties => omap (fun _ => AUnit) (gerg_ffi_calculate_properties p h)
  end.
Definition ffi_step (c : call) (h : heap) : outcome answer :=
  match c with
  | New KDetail m => omap APtr (aga8_new m h)
  | New KGerg m => omap APtr (gerg_ffi_new m h)
  | Free KDetail p => omap (fun _ => AUnit) (aga8_free p h)
  | Free KGerg p => omap (fun _ => AUnit) (gerg_ffi_free p h)
  | Use KDetail p u => use_detail p u h
  | Use KGerg p u => use_gerg p u h
  end.

(* a C program run: the calls it makes, in order *)
Fixpoint ffi_run (l : list call) (h : heap) : outcome (list answer) :=
  match l with
  | [] => Ret h []
  | c :: l => match ffi_step c h with
              | Ret h1 a => omap (cons a) (ffi_run l h1)
              | Panicked => Panicked
              | UB => UB
              end
  end.

End Ffi.
Arguments Ret {A X} h x.
Arguments Panicked {A X}.
Arguments UB {A X}.
