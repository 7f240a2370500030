(** The assembly dot product: db/core/index/distance/asm/dot.s, one instruction
    at a time (asm/dot.go is the generator it was made with).  The call in
    distance/dot.go:29 is commented out. *)
From Verif Require Import GoBase FloatModel.
From Coq Require Import SpecFloat.
Open Scope nat_scope.

(** Fused multiply-add x*y + z: exact, then rounded once to binary32. *)
Definition ffma (x y z : fl) : fl :=
  match x, y with
  | S754_nan, _ | _, S754_nan => S754_nan
  | S754_infinity s, S754_zero _ | S754_zero _, S754_infinity s => S754_nan
  | S754_infinity s, S754_infinity t | S754_infinity s, S754_finite t _ _ | S754_finite s _ _, S754_infinity t =>
      match z with
      | S754_nan => S754_nan
      | S754_infinity u => if Bool.eqb (xorb s t) u then z else S754_nan
      | _ => S754_infinity (xorb s t)
      end
  | S754_zero s, S754_zero t | S754_zero s, S754_finite t _ _ | S754_finite s _ _, S754_zero t =>
      match z with
      | S754_zero u => if Bool.eqb (xorb s t) u then z else S754_zero false
      | _ => z
      end
  | S754_finite s mx ex, S754_finite t my ey =>
      let p := cond_Zopp (xorb s t) (Zpos (mx * my)) in
      let e := (ex + ey)%Z in
      match z with
      | S754_nan | S754_infinity _ => z
      | S754_zero _ => binary_normalize 24 128 p e (xorb s t)
      | S754_finite u mz ez =>
          let e0 := Z.min e ez in
          binary_normalize 24 128 (p * 2 ^ (e - e0) + cond_Zopp u (Zpos mz) * 2 ^ (ez - e0)) e0 false
      end
  end.

(** Registers: three general ones, the result of the last comparison, and the
    vector registers Y0 to Y11 of eight float32 each (X0 to X11 are their lower
    halves). *)
Inductive gpr := AX | CX | DX.
Inductive label := Lblockloop | Ltail | Ltailloop | Lreduce.
Definition ymm := list fl.
Definition yzero : ymm := replicate 8 fzero.

(** The instructions of dot.s, operands in the order of Go's assembler (the
    destination last). *)
Inductive instr :=
| MOVQx (r : gpr)                              (* MOVQ x_base+0(FP), r *)
| MOVQy (r : gpr)                              (* MOVQ y_base+24(FP), r *)
| MOVQn (r : gpr)                              (* MOVQ x_len+8(FP), r *)
| VXORPSz (d : nat)                            (* VXORPS d, d, d: all bits become 0 *)
| LABEL (l : label)
| CMPQ (r : gpr) (i : Z)
| JL (l : label)
| JE (l : label)
| JMP (l : label)
| VMOVUPS (off : Z) (r : gpr) (d : nat)        (* VMOVUPS off(r), Yd *)
| VFMADD231PS (off : Z) (r : gpr) (a d : nat)  (* VFMADD231PS off(r), Ya, Yd *)
| ADDQ (i : Z) (r : gpr)
| SUBQ (i : Z) (r : gpr)
| DECQ (r : gpr)
| VMOVSS (r : gpr) (d : nat)                   (* VMOVSS (r), Xd *)
| VFMADD231SS (r : gpr) (a d : nat)            (* VFMADD231SS (r), Xa, Xd *)
| VADDPSy (a b d : nat)                        (* VADDPS Ya, Yb, Yd *)
| VADDPSx (a b d : nat)                        (* VADDPS Xa, Xb, Xd *)
| VEXTRACTF128 (a d : nat)                     (* VEXTRACTF128 $0x01, Ya, Xd *)
| VHADDPS (a b d : nat)                        (* VHADDPS Xa, Xb, Xd *)
| MOVSSret (a : nat)                           (* MOVSS Xa, ret+48(FP) *)
| RET.

(** dot.s:8-64 *)
Definition dot_s : list instr := [
  MOVQx AX; MOVQy CX; MOVQn DX;
  VXORPSz 0; VXORPSz 1; VXORPSz 2; VXORPSz 3; VXORPSz 4; VXORPSz 5;
  LABEL Lblockloop;
  CMPQ DX 48; JL Ltail;
  VMOVUPS 0 AX 6; VMOVUPS 32 AX 7; VMOVUPS 64 AX 8; VMOVUPS 96 AX 9; VMOVUPS 128 AX 10; VMOVUPS 160 AX 11;
  VFMADD231PS 0 CX 6 0; VFMADD231PS 32 CX 7 1; VFMADD231PS 64 CX 8 2;
  VFMADD231PS 96 CX 9 3; VFMADD231PS 128 CX 10 4; VFMADD231PS 160 CX 11 5;
  ADDQ 192 AX; ADDQ 192 CX; SUBQ 48 DX; JMP Lblockloop;
  LABEL Ltail;
  VXORPSz 6;
  LABEL Ltailloop;
  CMPQ DX 0; JE Lreduce;
  VMOVSS AX 7; VFMADD231SS CX 7 6;
  ADDQ 4 AX; ADDQ 4 CX; DECQ DX; JMP Ltailloop;
  LABEL Lreduce;
  VADDPSy 0 1 0; VADDPSy 0 2 0; VADDPSy 0 3 0; VADDPSy 0 4 0; VADDPSy 0 5 0;
  VEXTRACTF128 0 1; VADDPSx 0 1 0; VADDPSx 0 6 0; VHADDPS 0 0 0; VHADDPS 0 0 0;
  MOVSSret 0; RET ].

Record mach := Mach { m_pc : nat; m_ax : Z; m_cx : Z; m_dx : Z; m_cmp : Z; m_y : list ymm; m_ret : fl }.

Definition label_eqb (a b : label) : bool :=
  match a, b with
  | Lblockloop, Lblockloop | Ltail, Ltail | Ltailloop, Ltailloop | Lreduce, Lreduce => true
  | _, _ => false
  end.
(** The place of a label in the program. *)
Fixpoint place (p : list instr) (l : label) : nat :=
  match p with
  | [] => 0
  | LABEL l' :: p' => if label_eqb l l' then 0 else S (place p' l)
  | _ :: p' => S (place p' l)
  end.

Section machine.
  (** The arguments (addresses and the length of x), and the memory: the float32
      at an address, None where the program must not read. *)
  Context (xb yb xlen : Z) (mem : Z -> option f32).

  Definition getr (r : gpr) (m : mach) : Z := match r with AX => m_ax m | CX => m_cx m | DX => m_dx m end.
  (** 64-bit registers, read as signed numbers by comparisons and as addresses *)
  Definition wrap (z : Z) : Z := ((z + 2 ^ 63) mod 2 ^ 64 - 2 ^ 63)%Z.
  Definition setr (r : gpr) (z : Z) (m : mach) : mach :=
    match r with
    | AX => Mach (m_pc m) (wrap z) (m_cx m) (m_dx m) (m_cmp m) (m_y m) (m_ret m)
    | CX => Mach (m_pc m) (m_ax m) (wrap z) (m_dx m) (m_cmp m) (m_y m) (m_ret m)
    | DX => Mach (m_pc m) (m_ax m) (m_cx m) (wrap z) (m_cmp m) (m_y m) (m_ret m)
    end.
  Definition gety (i : nat) (m : mach) : ymm := default yzero (m_y m !! i).
  Definition sety (i : nat) (v : ymm) (m : mach) : mach :=
    Mach (m_pc m) (m_ax m) (m_cx m) (m_dx m) (m_cmp m) (<[i := v]> (m_y m)) (m_ret m).
  (** Writing an X register clears the upper half. *)
  Definition setx (i : nat) (v : list fl) (m : mach) : mach := sety i (v ++ replicate 4 fzero) m.
  Definition goto (pc : nat) (m : mach) : mach := Mach pc (m_ax m) (m_cx m) (m_dx m) (m_cmp m) (m_y m) (m_ret m).
  Definition next (m : mach) : mach := goto (S (m_pc m)) m.

  (** [n] float32 values from address [a] on *)
  Fixpoint load (a : Z) (n : nat) : option (list fl) :=
    match n with
    | O => Some []
    | S n' => match mem a with
              | Some w => match load (a + 4) n' with Some l => Some (f32_val w :: l) | None => None end
              | None => None
              end
    end.
  Definition lanes (f : fl -> fl -> fl) (a b : list fl) : list fl := zip_with f a b.
  Fixpoint fma_lanes (a b d : list fl) : list fl :=
    match a, b, d with
    | x :: a', y :: b', z :: d' => ffma x y z :: fma_lanes a' b' d'
    | _, _, _ => []
    end.
  (** VHADDPS: the pairs of the first source, then those of the second; for
      Go's operand order (a b d) the first source is b *)
  Definition hadd (b a : list fl) : list fl :=
    match b, a with
    | b0 :: b1 :: b2 :: b3 :: _, a0 :: a1 :: a2 :: a3 :: _ => [fadd b0 b1; fadd b2 b3; fadd a0 a1; fadd a2 a3]
    | _, _ => []
    end.

  Inductive outcome := Running (m : mach) | Returned (r : fl) | Faulted.

  Definition istep (i : instr) (m : mach) : outcome :=
    match i with
    | MOVQx r => Running (next (setr r xb m))
    | MOVQy r => Running (next (setr r yb m))
    | MOVQn r => Running (next (setr r xlen m))
    | VXORPSz d => Running (next (sety d yzero m))
    | LABEL _ => Running (next m)
    | CMPQ r k => Running (next (Mach (m_pc m) (m_ax m) (m_cx m) (m_dx m) (getr r m - k) (m_y m) (m_ret m)))
    | JL l => Running (if (m_cmp m <? 0)%Z then goto (place dot_s l) m else next m)
    | JE l => Running (if (m_cmp m =? 0)%Z then goto (place dot_s l) m else next m)
    | JMP l => Running (goto (place dot_s l) m)
    | VMOVUPS off r d =>
        match load (getr r m + off) 8 with Some v => Running (next (sety d v m)) | None => Faulted end
    | VFMADD231PS off r a d =>
        match load (getr r m + off) 8 with
        | Some v => Running (next (sety d (fma_lanes (gety a m) v (gety d m)) m))
        | None => Faulted
        end
    | ADDQ k r => Running (next (setr r (getr r m + k) m))
    | SUBQ k r => Running (next (setr r (getr r m - k) m))
    | DECQ r => Running (next (setr r (getr r m - 1) m))
    | VMOVSS r d =>
        match load (getr r m) 1 with Some v => Running (next (setx d (v ++ replicate 3 fzero) m)) | None => Faulted end
    | VFMADD231SS r a d =>
        match load (getr r m) 1 with
        | Some v => Running (next (setx d (fma_lanes (take 1 (gety a m)) v (take 1 (gety d m)) ++ take 3 (drop 1 (gety d m))) m))
        | None => Faulted
        end
    | VADDPSy a b d => Running (next (sety d (lanes fadd (gety b m) (gety a m)) m))
    | VADDPSx a b d => Running (next (setx d (lanes fadd (take 4 (gety b m)) (take 4 (gety a m))) m))
    | VEXTRACTF128 a d => Running (next (setx d (drop 4 (gety a m)) m))
    | VHADDPS a b d => Running (next (setx d (hadd (gety b m) (gety a m)) m))
    | MOVSSret a => Running (next (Mach (m_pc m) (m_ax m) (m_cx m) (m_dx m) (m_cmp m) (m_y m) (default fzero (head (gety a m)))))
    | RET => Returned (m_ret m)
    end.

  Definition mnext (m : mach) : outcome :=
    match dot_s !! m_pc m with Some i => istep i m | None => Faulted end.

  (** What a call comes to; a call that runs for ever comes to nothing. *)
  Inductive ends : mach -> outcome -> Prop :=
  | EndRet m r : mnext m = Returned r -> ends m (Returned r)
  | EndFault m : mnext m = Faulted -> ends m Faulted
  | EndStep m m' o : mnext m = Running m' -> ends m' o -> ends m o.

  (** The same with a bound on the number of instructions. *)
  Fixpoint mrun (n : nat) (m : mach) : outcome :=
    match n with
    | O => Running m
    | S n' => match mnext m with Running m' => mrun n' m' | o => o end
    end.
End machine.

(** asm/dot_stub.go:5 func Dot(x []float32, y []float32) float32.  The contents
    of the registers at the call are arbitrary ([m]); the program starts at 0. *)
Definition at_call (m : mach) : Prop := m_pc m = 0 /\ length (m_y m) = 12 /\ Forall (fun v => length v = 8) (m_y m).
