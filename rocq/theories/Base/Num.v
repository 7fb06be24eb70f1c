(** Geometry is written once over a record of number operations and used with float32 (the
    code) and, for statements about the algorithms in exact arithmetic, with rationals. *)
From Coq Require Import ZArith Bool QArith.
From Verif.Base Require Import F32 GoNum.
Open Scope Z_scope.

Record Num (T : Type) := mkNum {
  nadd : T -> T -> T;
  nsub : T -> T -> T;
  nmul : T -> T -> T;
  ndiv : T -> T -> T;
  nlt : T -> T -> bool;
  nle : T -> T -> bool;
  nneg : T -> T;
  nabs : T -> T;
  nZ : Z -> T;               (* integer constant *)
  nratio : Z -> Z -> T       (* constant n/d *)
}.
Arguments nadd {T}. Arguments nsub {T}. Arguments nmul {T}. Arguments ndiv {T}.
Arguments nlt {T}. Arguments nle {T}. Arguments nneg {T}. Arguments nabs {T}.
Arguments nZ {T}. Arguments nratio {T}.

(** float32 *)
Definition numF : Num f32 := mkNum f32 fadd fsub fmul fdiv flt fle fopp fabs f_of_Z f_ratio.

(** Exact rationals; division by zero is 0 as in the standard library. *)
Definition Qltb (a b : Q) : bool := negb (Qle_bool b a).
Definition Qabs' (a : Q) : Q := if Qltb a 0 then Qopp a else a.
Definition numQ : Num Q :=
  mkNum Q Qplus Qminus Qmult Qdiv Qltb Qle_bool Qopp Qabs' inject_Z (fun n d => inject_Z n / inject_Z d)%Q.

(** ** float32 bit patterns (math.Float32bits / Float32frombits); a NaN written back is the
    canonical quiet NaN. *)
Definition f_of_bits (b : Z) : f32 :=
  let s := 2147483648 <=? b in
  let e := b / 8388608 mod 256 in
  let m := b mod 8388608 in
  if e =? 255 then (if m =? 0 then S754_infinity s else S754_nan)
  else if e =? 0 then (match m with Zpos p => S754_finite s p (-149) | _ => S754_zero s end)
  else match m + 8388608 with Zpos p => S754_finite s p (e - 150) | _ => S754_nan end.
Definition bits_of_f (f : f32) : Z :=
  match f with
  | S754_zero s => if s then 2147483648 else 0
  | S754_infinity s => (if s then 2147483648 else 0) + 2139095040
  | S754_nan => 2143289344
  | S754_finite s m e =>
      (if s then 2147483648 else 0) +
      (if Z.pos m <? 8388608 then Z.pos m else (e + 150) * 8388608 + (Z.pos m - 8388608))
  end.

(** math.MaxFloat32 *)
Definition maxFloat32 : f32 := S754_finite false 16777215 104.

(** Conversions float32 -> unsigned integer. The Go specification leaves values out of range
    to the implementation; amd64 truncates to 64 bits and takes the low bits, and gives 0 in
    the low bits for NaN and infinities. *)
Definition f_to_u8 (a : f32) : Z := match f_trunc a with Some z => u8 z | None => 0 end.
Definition f_to_u32 (a : f32) : Z := match f_trunc a with Some z => u32 z | None => 0 end.
(** float32 -> int32: amd64 gives the minimum for values out of range. *)
Definition f_to_i32 (a : f32) : Z :=
  match f_trunc a with
  | Some z => if (-2147483648 <=? z) && (z <? 2147483648) then z else -2147483648
  | None => -2147483648
  end.
(** math32.Floor followed by int32(...): largest integer below. *)
Definition f_floor_i32 (a : f32) : Z :=
  match f_trunc a with
  | Some z =>
      let z := if flt a (f_of_Z z) then z - 1 else z in
      if (-2147483648 <=? z) && (z <? 2147483648) then z else -2147483648
  | None => -2147483648
  end.

(** math32.Max, math32.Min, f32.Clamp and math32.Sqr (external helpers). *)
Definition fmaxf (a b : f32) : f32 := if fgt a b then a else b.
Definition fminf (a b : f32) : f32 := if flt a b then a else b.
Definition fclamp (v lo hi : f32) : f32 := if flt v lo then lo else if fgt v hi then hi else v.
Definition fsqr (a : f32) : f32 := fmul a a.
