(** The floating-point operations the code uses, as a record, and the comparison laws proofs may use. *)
From Verif Require Import Base.

(** f64 operations. [fsqr x] is [f64::powf(x, 2.)] (the only use of [powf] in the code);
    [fsum0] is the start value of [Iterator::sum] for f64; [f_of_nat] is [usize as f64];
    [f_to_usize] is [f64 as usize]; [fltb]/[fleb]/[feqb] are [<], [<=], [==]. *)
Class NumOps := {
  F : Type;
  f0 : F;
  f1 : F;
  finf : F;
  fninf : F;
  fsum0 : F;
  fadd : F -> F -> F;
  fsub : F -> F -> F;
  fmul : F -> F -> F;
  fdiv : F -> F -> F;
  fneg : F -> F;
  fabs : F -> F;
  fexp : F -> F;
  fsqr : F -> F;
  fltb : F -> F -> bool;
  fleb : F -> F -> bool;
  feqb : F -> F -> bool;
  f_of_nat : nat -> F;
  f_to_usize : F -> N
}.

(** What structural proofs may assume of the numbers. Proved for binary64 in F64.v and for exact
    arithmetic in XR.v. A value is "not NaN" when [fleb x x = true]. *)
Record NumLaws (O : NumOps) : Prop := {
  fleb_trans : forall x y z, fleb x y = true -> fleb y z = true -> fleb x z = true;
  fleb_total : forall x y, fleb x x = true -> fleb y y = true -> fleb x y = true \/ fleb y x = true;
  fleb_nan_l : forall x y, fleb x y = true -> fleb x x = true;
  fleb_nan_r : forall x y, fleb x y = true -> fleb y y = true;
  feqb_fleb : forall x y, feqb x y = fleb x y && fleb y x;
  fltb_fleb : forall x y, fltb x y = fleb x y && negb (fleb y x);
  f0_num : fleb f0 f0 = true;
  fsub_inf : forall x, fltb f0 (fsub x finf) = false;
  fninf_least : forall x, fleb fninf x = fleb x x;
  f_of_nat_0 : f_of_nat 0 = f0;
  f_of_nat_S : forall n, (Z.of_nat n < 2 ^ 53)%Z -> fadd (f_of_nat n) f1 = f_of_nat (S n);
  f_to_usize_nat : forall n, (Z.of_nat n <= 2 ^ 53)%Z -> f_to_usize (f_of_nat n) = N.of_nat n
}.
