(** * notebooks/Minimum_length_nozzle.py
    Angles in radians; the math module raises where a value does not exist, which is [None] here.
    Prints and plots are left out.  Loops "while" carry a number of passes [fuel]: [None] when it is
    used up. *)
From Coq Require Import List.
From Verif Require Import Num.
Import ListNotations.
Open Scope num_scope.

(** Minimum_length_nozzle.py:6 *)
Definition mn_gamma : num := #(127/100).

(** Minimum_length_nozzle.py:15-23 *)
Definition pmeyer (M : num) : num :=
  let c := (mn_gamma - #1) / (mn_gamma + #1) in
  let v := nsqrt (#1 / c) * narctan (nsqrt (c * (M ^ 2 - #1))) in
  v - narctan (nsqrt (M ^ 2 - #1)).

(** Minimum_length_nozzle.py:26-37; the test is M == 1 *)
Definition pmeyer_prime (M : num) : num :=
  match M with
  | None => None
  | Some m =>
    if Req_EM_T m 1 then #0 else
    let c := (mn_gamma - #1) / (mn_gamma + #1) in
    ((M / (#1 + c * (M ^ 2 - #1))) - #1 / M) / nsqrt (M ^ 2 - #1)
  end.

(** Minimum_length_nozzle.py:48-60: the loop of mach_via_pmeyer *)
Fixpoint mvp_loop (fuel : nat) (v M : num) : num :=
  nif (nabs (v - pmeyer M) >? #(1/100000))
    (match fuel with
     | O => None
     | S k => mvp_loop k v (M - (v - pmeyer M) / (#(-1) * pmeyer_prime M))
     end)
    M.
(** Minimum_length_nozzle.py:39-62 *)
Definition mach_via_pmeyer (fuel : nat) (v : num) : num :=
  match v with
  | None => None
  | Some v0 => if Req_EM_T v0 0 then #1 else mvp_loop fuel v #2
  end.

(** Minimum_length_nozzle.py:65-67 *)
Definition mach_angle (M : num) : num := narcsin (#1 / M).

(** Minimum_length_nozzle.py:73-105: class point *)
Record point := mkpt { px : num; py : num; ptheta : num; pnu : num }.
Definition k_plus (p : point) : num := ptheta p - pnu p.
Definition k_moins (p : point) : num := ptheta p + pnu p.

(** caratab[a][b] *)
Definition nopoint : point := mkpt None None None None.
Definition get (caratab : list (list point)) (a b : nat) : point := nth b (nth a caratab []) nopoint.

(** Minimum_length_nozzle.py:108-136 *)
Definition new_point (fuel : nat) (caratab : list (list point)) (a b : nat) : point :=
  let father_Cmoins := get caratab a (b - 1) in
  let father_Cplus := get caratab (a - 1) b in
  let theta := (k_moins father_Cmoins + k_plus father_Cplus) / #2 in
  let nu := (k_moins father_Cmoins - k_plus father_Cplus) / #2 in
  let Beta_plus := (ptheta father_Cplus + mach_angle (mach_via_pmeyer fuel (pnu father_Cplus)) + theta + mach_angle (mach_via_pmeyer fuel nu)) / #2 in
  let Beta_moins := (ptheta father_Cmoins - mach_angle (mach_via_pmeyer fuel (pnu father_Cmoins)) + theta - mach_angle (mach_via_pmeyer fuel nu)) / #2 in
  let y := (py father_Cplus - py father_Cmoins * ntan Beta_plus / ntan Beta_moins + (px father_Cmoins - px father_Cplus) * ntan Beta_plus)
           / (#1 - ntan Beta_plus / ntan Beta_moins) in
  let x := px father_Cmoins + (y - py father_Cmoins) / ntan Beta_moins in
  mkpt x y theta nu.

(** Minimum_length_nozzle.py:225-231 (186-192 for the first characteristic): the point on the axis,
    from the last point p of the characteristic, with the given angles *)
Definition axis_point (fuel : nat) (p : point) (theta nu : num) : point :=
  let Beta := ptheta p - mach_angle (mach_via_pmeyer fuel (pnu p)) in
  mkpt (px p - py p / ntan Beta) #0 theta nu.

(** Minimum_length_nozzle.py:212-215: the points b = 1..a of characteristic a, appended one after the other *)
Definition inner_points (fuel : nat) (caratab : list (list point)) (a : nat) : list (list point) :=
  fold_left (fun tab b => firstn a tab ++ [nth a tab [] ++ [new_point fuel tab a b]]) (seq 1 a) caratab.

(** Minimum_length_nozzle.py:201-231: one pass of the loop on the characteristics *)
Definition add_characteristic (fuel : nat) (radius delta_theta : num) (caratab : list (list point)) (a : nat) : list (list point) :=
  let theta := ptheta (get caratab (a - 1) 0) + delta_theta in
  let tab := inner_points fuel (caratab ++ [[mkpt #0 radius theta theta]]) a in
  let last := get tab a a in
  firstn a tab ++ [nth a tab [] ++ [axis_point fuel last #0 (k_moins last)]].

(** Minimum_length_nozzle.py:152-231: the net of characteristics *)
Definition net_of (fuel : nat) (radius theta0 : num) (n : nat) : list (list point) :=
  let dtheta := theta0 / #(INR n) / #100 in
  let delta_theta := (theta0 - dtheta) / #(INR n) in
  let p0 := mkpt #0 radius dtheta dtheta in
  fold_left (add_characteristic fuel radius delta_theta) (seq 1 n) [[p0; axis_point fuel p0 dtheta dtheta]].

(** Minimum_length_nozzle.py:248-259 (k = 1) and 265-280 (k >= 2): the wall point cancelling expansion k,
    from the wall point before it and the point number k of the last characteristic *)
Definition wall_point (fuel : nat) (pere_mur pere_ecoulement : point) (k : nat) : point :=
  let sigma := ptheta pere_ecoulement + mach_angle (mach_via_pmeyer fuel (pnu pere_ecoulement)) in
  let theta_moy := (ptheta pere_ecoulement + ptheta pere_mur) / #2 in
  let y := (py pere_ecoulement - py pere_mur * ntan sigma / ntan theta_moy + (px pere_mur - px pere_ecoulement) * ntan sigma)
           / (#1 - ntan sigma / ntan theta_moy) in
  let x := match k with
           | 1%nat => px pere_ecoulement + (y - py pere_ecoulement) / ntan sigma
           | _ => px pere_mur + (y - py pere_mur) / ntan theta_moy
           end in
  mkpt x y (ptheta pere_ecoulement) (pnu pere_ecoulement).

(** Minimum_length_nozzle.py:248-280: corner and wall points 1..n+1, in this order *)
Definition wall_of (fuel : nat) (net : list (list point)) (n : nat) : list point :=
  fold_left (fun wall k => wall ++ [wall_point fuel (last wall nopoint) (get net n k) k]) (seq 1 (n + 1)) [get net n 0].

Definition is_num (x : num) : bool := match x with Some _ => true | None => false end.
Definition definite (p : point) : bool := is_num (px p) && is_num (py p) && is_num (ptheta p) && is_num (pnu p).

(** Minimum_length_nozzle.py:150-362: the net, the wall and the Mach number at the end of the wall.
    The call raises (or does not end) as soon as one value is missing.  The profile which Python returns
    is the list of the coordinates of the wall points. *)
Definition Minimum_length_nozzle (fuel : nat) (mach_final area_throat : num) (n : nat) : option (list (list point) * list point * R) :=
  let theta0 := pmeyer mach_final / #2 in
  let radius := nsqrt (area_throat / npi) in
  let net := net_of fuel radius theta0 n in
  let wall := wall_of fuel net n in
  if forallb (forallb definite) net && forallb definite wall then
    match mach_via_pmeyer fuel (pnu (last wall nopoint)) with
    | Some M => Some (net, wall, M)
    | None => None
    end
  else None.

(** Minimum_length_nozzle.py:365-367 *)
Definition rapport_expansion (mach : num) : num :=
  ((#2 + (mn_gamma - #1) * mach ^ 2) / (mn_gamma + #1)) ** ((mn_gamma + #1) / #2 / (mn_gamma - #1)) / mach.
