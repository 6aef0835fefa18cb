(** Model of dynamic spectra: nenupy/beamlet/sdata.py 165-332 ([SData], its
    concatenations and arithmetic), 334-347 ([__getitem__]), 351-364 (the setter of
    the data) and 735-780 ([_check_conformity], [_check_value]).
    Times are numbers of seconds and frequencies numbers of hertz, exact; units
    of measure and formats of times are not modelled.  Samples are of any type with
    four operations; polarisations are astropy units, of any type with a product, a
    quotient and a name. *)
From Coq Require Import String List Arith ZArith QArith Qabs Bool.
From Verif Require Import Base M_Nd M_Select.
Import ListNotations.
Open Scope nat_scope.

Record units (U : Type) := mkUnits { u_str : U -> string; u_mul : U -> U -> U; u_div : U -> U -> U }.
Arguments u_str {U}. Arguments u_mul {U}. Arguments u_div {U}.
Record numbers (A : Type) := mkNumbers { n_add : A -> A -> A; n_sub : A -> A -> A; n_mul : A -> A -> A; n_div : A -> A -> A }.
Arguments n_add {A}. Arguments n_sub {A}. Arguments n_mul {A}. Arguments n_div {A}.

Record sdata (A U : Type) := mkS { s_time : list Q; s_freq : list Q; s_polar : list U; s_data : nd A }.
Arguments mkS {A U}. Arguments s_time {A U}. Arguments s_freq {A U}. Arguments s_polar {A U}. Arguments s_data {A U}.

(** The other operand. *)
Inductive operand (A U : Type) :=
| OSData (s : sdata A U)
| OArray (a : nd A)
| ONumber (x : A)
| OOther.
Arguments OSData {A U}. Arguments OArray {A U}. Arguments ONumber {A U}. Arguments OOther {A U}.

(** 177-181, 354-364 *)
Definition sdata_new {A U} (t f : list Q) (p : list U) (d : nd A) : res (sdata A U) :=
  match sh d with
  | [ts; fs; ps] =>
      if negb (length t =? ts) then Err EAssertionError
      else if negb (length f =? fs) then Err EAssertionError
      else if negb (length p =? ps) then Err EAssertionError
      else Ok (mkS t f p d)
  | _ => Err EValueError
  end.

(** [np.hstack((a, b))], axis 1, and [np.vstack((a, b))], axis 0, of arrays with three axes. *)
Definition hstack {A} (a b : nd A) : res (nd A) :=
  match sh a, sh b with
  | [ta; fa; pa], [tb; fb; pb] =>
      if (ta =? tb) && (pa =? pb)
      then Ok (mkNd [ta; fa + fb; pa]
             (fun idx => match idx with
                         | [i; j; k] => if j <? fa then get a [i; j; k] else get b [i; j - fa; k]
                         | _ => get a idx
                         end))
      else Err EValueError
  | _, _ => Err EValueError
  end.
Definition vstack {A} (a b : nd A) : res (nd A) :=
  match sh a, sh b with
  | [ta; fa; pa], [tb; fb; pb] =>
      if (fa =? fb) && (pa =? pb)
      then Ok (mkNd [ta + tb; fa; pa]
             (fun idx => match idx with
                         | [i; j; k] => if i <? ta then get a [i; j; k] else get b [i - ta; j; k]
                         | _ => get a idx
                         end))
      else Err EValueError
  | _, _ => Err EValueError
  end.

Definition same_polar {U} (U0 : units U) (p q : list U) : bool :=
  if list_eq_dec string_dec (map (u_str U0) p) (map (u_str U0) q) then true else false.
Definition qlt (a b : Q) : bool := negb (Qle_bool b a).

(** [all(self.time.isclose(other.time, atol))]; another length, other than 1, is
    refused by the subtraction (TypeError). *)
Definition all_close (t u : list Q) (atol : Q) : res bool :=
  let close x y := Qle_bool (Qabs (x - y)) atol in
  if length t =? length u then Ok (forallb (fun xy => close (fst xy) (snd xy)) (combine t u))
  else match u with
       | [y] => Ok (forallb (fun x => close x y) t)
       | _ => Err ETypeError
       end.

(** 188-219 *)
Definition s_and {A U} (U0 : units U) (a : sdata A U) (o : operand A U) : res (sdata A U) :=
  match o with
  | OSData b =>
      if negb (same_polar U0 (s_polar a) (s_polar b)) then Err EValueError      (* 195-198 *)
      else match s_time a with
           | t0 :: t1 :: _ =>
               bind (all_close (s_time a) (s_time b) (t1 - t0)%Q) (fun c =>     (* 199 *)
               if negb c then Err EValueError
               else bind (qmax_list (s_freq a)) (fun m =>                       (* 205 *)
                    bind (qmin_list (s_freq b)) (fun m' =>
                    if qlt m m'
                    then bind (hstack (s_data a) (s_data b)) (fun d =>
                         sdata_new (s_time a) (s_freq a ++ s_freq b) (s_polar a) d)
                    else bind (hstack (s_data b) (s_data a)) (fun d =>
                         sdata_new (s_time a) (s_freq b ++ s_freq a) (s_polar a) d))))
           | _ => Err EIndexError                                              (* self.time[1] *)
           end
  | _ => Err ETypeError                                                         (* 191-194 *)
  end.

(** [all(self.freq == other.freq)]: an exception when the lengths differ. *)
Definition all_equal (f g : list Q) : res bool :=
  if length f =? length g then Ok (forallb (fun xy => Qeq_bool (fst xy) (snd xy)) (combine f g))
  else Err EValueError.
(** 222-252 *)
Definition s_or {A U} (U0 : units U) (a : sdata A U) (o : operand A U) : res (sdata A U) :=
  match o with
  | OSData b =>
      if negb (same_polar U0 (s_polar a) (s_polar b)) then Err EValueError      (* 229-232 *)
      else bind (all_equal (s_freq a) (s_freq b)) (fun c =>                     (* 233-236 *)
           if negb c then Err EValueError
           else bind (qmax_list (s_time a)) (fun m =>                           (* 238 *)
                bind (qmin_list (s_time b)) (fun m' =>
                if qlt m m'
                then bind (vstack (s_data a) (s_data b)) (fun d =>
                     sdata_new (s_time a ++ s_time b) (s_freq a) (s_polar a) d)
                else bind (vstack (s_data b) (s_data a)) (fun d =>              (* 243-245 *)
                     sdata_new (s_time a ++ s_time b) (s_freq a) (s_polar a) d))))
  | _ => Err ETypeError
  end.

(** 735-761: [all(self.time != other.time)]. *)
Definition none_equal (l m : list Q) : bool := forallb (fun xy => negb (Qeq_bool (fst xy) (snd xy))) (combine l m).
Definition check_conformity {A U} (a b : sdata A U) : res unit :=
  if negb (if list_eq_dec Nat.eq_dec (sh (s_data a)) (sh (s_data b)) then true else false) then Err EValueError
  else if none_equal (s_time a) (s_time b) then Err EValueError
  else if none_equal (s_freq a) (s_freq b) then Err EValueError
  else Ok tt.
(** 764-779 *)
Definition check_value {A U} (a : sdata A U) (o : operand A U) : res unit :=
  match o with
  | OArray x => if list_eq_dec Nat.eq_dec (sh x) (sh (s_data a)) then Ok tt else Err EValueError
  | ONumber _ => Ok tt
  | _ => Err EException
  end.
Definition zip_nd {A} (f : A -> A -> A) (a b : nd A) : nd A := mkNd (sh a) (fun idx => f (get a idx) (get b idx)).

Inductive op := Add | Sub | Mul | Div.
Definition on_numbers {A} (N : numbers A) (o : op) : A -> A -> A :=
  match o with Add => n_add N | Sub => n_sub N | Mul => n_mul N | Div => n_div N end.
(** 255-332; the four operators have the same body up to the treatment of polarisations. *)
Definition s_op {A U} (U0 : units U) (N : numbers A) (o : op) (a : sdata A U) (x : operand A U) : res (sdata A U) :=
  match x with
  | OSData b =>
      bind (check_conformity a b) (fun _ =>
      match o with
      | Add | Sub =>
          if negb (same_polar U0 (s_polar a) (s_polar b)) then Err EValueError
          else sdata_new (s_time a) (s_freq a) (s_polar a) (zip_nd (on_numbers N o) (s_data a) (s_data b))
      | Mul => sdata_new (s_time a) (s_freq a) (map (fun pq => u_mul U0 (fst pq) (snd pq)) (combine (s_polar a) (s_polar b)))
                         (zip_nd (on_numbers N o) (s_data a) (s_data b))
      | Div => sdata_new (s_time a) (s_freq a) (map (fun pq => u_div U0 (fst pq) (snd pq)) (combine (s_polar a) (s_polar b)))
                         (zip_nd (on_numbers N o) (s_data a) (s_data b))
      end)
  | OArray v =>
      bind (check_value a x) (fun _ => sdata_new (s_time a) (s_freq a) (s_polar a) (zip_nd (on_numbers N o) (s_data a) v))
  | ONumber v =>
      bind (check_value a x) (fun _ => sdata_new (s_time a) (s_freq a) (s_polar a) (nmap (fun y => on_numbers N o y v) (s_data a)))
  | OOther => bind (check_value a x) (fun _ => Err EException)
  end.

(** ** Slices: 334-347 *)
Record pslice := mkSlice { sl_start : option Z; sl_stop : option Z; sl_step : option Z }.
(** [slice.indices(n)], as in CPython's PySlice_AdjustIndices. *)
Definition slice_indices (n : nat) (s : pslice) : res (list nat) :=
  let n := Z.of_nat n in
  let step := match sl_step s with Some k => k | None => 1%Z end in
  let adjust (lo hi x : Z) := if (x <? 0)%Z then (if (x + n <? lo)%Z then lo else x + n)%Z
                              else if (hi <? x)%Z then hi else x in
  if (step =? 0)%Z then Err EValueError
  else if (0 <? step)%Z then
    let a := match sl_start s with Some x => adjust 0%Z n x | None => 0%Z end in
    let b := match sl_stop s with Some x => adjust 0%Z n x | None => n end in
    let len := if (a <? b)%Z then ((b - a - 1) / step + 1)%Z else 0%Z in
    Ok (map (fun k => Z.to_nat (a + Z.of_nat k * step)) (seq 0 (Z.to_nat len)))
  else
    let a := match sl_start s with Some x => adjust (-1)%Z (n - 1)%Z x | None => (n - 1)%Z end in
    let b := match sl_stop s with Some x => adjust (-1)%Z (n - 1)%Z x | None => (-1)%Z end in
    let len := if (b <? a)%Z then ((a - b - 1) / (- step) + 1)%Z else 0%Z in
    Ok (map (fun k => Z.to_nat (a + Z.of_nat k * step)) (seq 0 (Z.to_nat len))).
Definition pick {A} (d : A) (l : list A) (is : list nat) : list A := map (fun i => nth i l d) is.
(** [d] is a default for [nth], never reached.  Anything but three slices is an IndexError. *)
Definition s_getitem {A U} (d : U) (a : sdata A U) (ss : option (pslice * pslice * pslice)) : res (sdata A U) :=
  match ss with
  | None => Err EIndexError
  | Some (s0, s1, s2) =>
      bind (slice_indices (nth 0 (sh (s_data a)) 0) s0) (fun i0 =>
      bind (slice_indices (nth 1 (sh (s_data a)) 0) s1) (fun i1 =>
      bind (slice_indices (nth 2 (sh (s_data a)) 0) s2) (fun i2 =>
      bind (slice_indices (length (s_time a)) s0) (fun jt =>
      bind (slice_indices (length (s_freq a)) s1) (fun jf =>
      bind (slice_indices (length (s_polar a)) s2) (fun jp =>
      sdata_new (pick 0%Q (s_time a) jt) (pick 0%Q (s_freq a) jf) (pick d (s_polar a) jp)
        (mkNd [length i0; length i1; length i2]
           (fun idx => match idx with
                       | [i; j; k] => get (s_data a) [nth i i0 0; nth j i1 0; nth k i2 0]
                       | _ => get (s_data a) idx
                       end))))))))
  end.
