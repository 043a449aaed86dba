(** What can happen to an AudioParam of a running context. *)
From Coq Require Import List ZArith QArith Reals Bool.
From Flocq Require Import BinarySingleNaN.
From Verif Require Import Float_Model Param_Model Param_Inst Param_Spec.
Import ListNotations.

Section Clock.
Context {T V : Type}.

(** a call of the API, a change of the automation rate, or a quantum with a modulation input *)
Inductive action := Call (c : @call T V) | Set_rate (arate : bool) | Render (input : list V) (silent : bool).

(** the actions with the clock of the render thread: [time n] is the time of quantum [n] *)
Fixpoint on_clock (time : Z -> T) (dt : T) (n : Z) (l : list action) : list (@pop T V) :=
  match l with
  | [] => []
  | Call c :: l' => Schedule c :: on_clock time dt n l'
  | Set_rate a :: l' => Rate a :: on_clock time dt n l'
  | Render input silent :: l' => Quantum (time n) dt input silent :: on_clock time dt (n + 1) l'
  end.

(** every modulation input has one value per frame *)
Definition inputs_ok (RQ : nat) (l : list action) : Prop :=
  Forall (fun a => match a with Render input _ => length input = RQ | _ => True end) l.

(** every scheduling call is legal in the state it is applied to *)
Fixpoint calls_ok (P : @param_ops T V) (RQ : nat) (p : param) (os : list pop) : Prop :=
  match os with
  | [] => True
  | o :: os' => match o with Schedule c => call_ok P p c | _ => True end /\
                match pstep P RQ p o with Ok (p', _) => calls_ok P RQ p' os' | _ => True end
  end.

Definition is_curve_call (c : @call T V) : bool := match c with C_curve _ _ _ => true | _ => false end.
Definition no_curves (l : list action) : Prop :=
  Forall (fun a => match a with Call c => is_curve_call c = false | _ => True end) l.
End Clock.
Arguments action : clear implicits.

(** The f64 clock (thread.rs 357-405: [current_time = current_frame as f64 / sample_rate],
    quanta of 128 frames; param.rs 671: [dt = 1. / sample_rate]). *)
Definition clock (sr : f64) (n : Z) : f64 := f64_div (f64_of_Z (n * 128)) sr.
Definition frame_length (sr : f64) : f64 := f64_div f64_one sr.
(** lib.rs 159: the supported sample rates *)
Definition valid_sample_rate (sr : f64) : Prop := is_finite sr = true /\ (3000 <= B2R sr <= 768000)%R.
(** 2^41 quanta are more than ten years at the highest sample rate *)
Definition valid_actions (l : list (action f64 f32)) : Prop := inputs_ok 128 l /\ (Z.of_nat (length l) <= 2 ^ 41)%Z.

(** a nominal range and a default value inside (param.rs 1616-1626) *)
Definition valid_range (dflt lo hi : f32) : Prop :=
  is_finite dflt = true /\ is_finite lo = true /\ is_finite hi = true /\ (B2R lo <= B2R dflt <= B2R hi)%R.

(** The values of the parameter of a running context: [None] if the render thread
    crashes.  [f64_exp] and [f32_powf] are the functions of the mathematical library. *)
Section Running.
Variable f64_exp : f64 -> f64.
Variable f32_powf : f32 -> f32 -> f32.
Definition running (sr : f64) (arate : bool) (dflt lo hi : f32) (l : list (action f64 f32)) : res (@param f64 f32 * list (list f32)) :=
  prun (ieee_ops f64_exp f32_powf) 128 (new_param arate dflt lo hi) (on_clock (clock sr) (frame_length sr) 0 l).
(** the states a parameter can be in *)
Definition reached (sr : f64) (arate : bool) (dflt lo hi : f32) (p : @param f64 f32) : Prop :=
  exists l outs, valid_actions l /\ running sr arate dflt lo hi l = Ok (p, outs).
End Running.

(** the same in exact arithmetic *)
Definition exact_clock (dt : Q) (RQ : nat) (n : Z) : Q := (inject_Z (n * Z.of_nat RQ) * dt)%Q.
