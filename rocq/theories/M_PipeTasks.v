(** Model of the rebinning tasks of the pipeline: nenupy/io/tf.py 625-683. *)
From Coq Require Import String List Arith ZArith QArith Bool.
From Verif Require Import Base M_Slots M_Nd M_Rebin M_Pipeline.
Import ListNotations.
Open Scope nat_scope.

(** The embedded function of both tasks, along [axis]: nenupy/io/tf.py 625-636
    ([rebin_time], axis 0, keywords dt and rebin_dt) and 667-678 ([rebin_freq],
    axis 1, keywords df and rebin_df).  Times, frequencies and samples are
    rationals or NaN. *)
Definition rebin_step (axis : nat) (kw : list (string * option pyval)) (ax : list sample) (data : nd sample)
  : res (list sample * nd sample) :=
  match kw with
  | [(_, Some dx); (_, Some new_dx)] =>
      if is_none new_dx then Ok (ax, data)                              (* 626-627, 668-669 *)
      else match dx, new_dx with
           | VNum (Some x), VNum (Some y) => rebin_along data ax axis x y   (* 629-635, 671-677 *)
           | VNum _, VNum _ => Err EValueError                          (* int of NaN, tf_utils.py 2022 *)
           | _, _ => Err EAttributeError                                (* to_value *)
           end
  | _ => Err ETypeError
  end.
(** nenupy/io/tf.py 638, 680-682. *)
Definition time_rebin : task (list sample) (list sample) (nd sample) :=
  make_task "Rebin in time" (CTime (rebin_step 0)) ["dt"; "rebin_dt"]%string true.
Definition frequency_rebin : task (list sample) (list sample) (nd sample) :=
  make_task "Rebin in frequency" (CFreq (rebin_step 1)) ["df"; "rebin_df"]%string true.
