(** De-dispersed coherency matrices. *)
From Coq Require Import QArith Reals Lra List Arith Lia.
From Verif Require Import Base M_Nd P_Nd M_Polar P_Polar M_Dedisperse P_Dedisperse.
Import ListNotations.
Open Scope nat_scope.

(** The cast of a complex sample to a float. *)
Definition to_float (z : cpx) : option cpx := Some (creal (re z)).
Theorem circular_lost : forall data fs step dm r, de_disperse to_float None data fs step dm = Ok r ->
  forall t c z, get r [t; c; 0; 1] = Some z -> (-2 * im z = 0)%R.
Proof.
  intros data fs step dm r E t c z G.
  destruct (de_disperse_image _ _ _ _ _ _ _ _ _ E [t; c; 0; 1]) as [H|[x H]]; rewrite H in G; [discriminate|].
  injection G as <-. unfold creal, im; simpl. lra.
Qed.
Definition circular_data : nd cpx := mkNd [1; 1; 2; 2] (fun idx =>
  match idx with [_; _; i; j] => mget (coherency [((1, 0), (0, 1))%R]) i j | _ => creal 0 end).
Theorem circular_lost_case : sV (mat_at circular_data [0; 0]) = 2%R /\
  exists r, de_disperse to_float None circular_data [50%Q] 1 0 = Ok r /\
    get r [0; 0; 0; 1] = Some (0%R, 0%R).
Proof.
  split.
  - replace (mat_at circular_data [0; 0]) with (coherency [((1, 0), (0, 1))%R])
      by (unfold mat_at, circular_data; cbn [get app]; now rewrite mat_of_get).
    rewrite coherency_recorded. unfold sV, rec_im; cbn [m01 total]. unfold im, re; cbn [fst snd]. ring.
  - destruct (de_disperse_spec cpx (option cpx) to_float None circular_data 1 [50%Q] [2; 2] 1 0 50)
      as (r & E & _ & _).
    + reflexivity.
    + apply Qle_refl.
    + reflexivity.
    + intros f [<-|[]]. reflexivity.
    + split; [now left|]. intros f [<-|[]]. apply Qle_refl.
    + exists r. split; [exact E|].
      rewrite (no_delay _ _ to_float None circular_data 1 [50%Q] [2; 2] 1 r eq_refl eq_refl) with (t := 0) (c := 0) (p := [0; 1]).
      * unfold to_float, circular_data; cbn [get]. rewrite coherency_recorded.
        unfold mget; cbn [m01]. unfold rec_re, rec_im; cbn [total]. unfold creal, re, im; cbn [fst snd].
        f_equal. f_equal. ring.
      * intros f [<-|[]]. reflexivity.
      * discriminate.
      * exact E.
      * lia.
      * simpl; lia.
      * repeat constructor.
Qed.
