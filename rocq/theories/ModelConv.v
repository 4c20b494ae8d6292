(* Stand-alone unit converters and the gravitational constant.  Models clustertools/util/units.py and
   clustertools/util/constants.py:79-100. *)
From Verif Require Import Base ModelCluster ModelOps.

(* np.arctan2(y, x) *)
Definition atan2 (y x : R) : R :=
  if Rltb 0 x then atan (y / x)
  else if Rltb x 0 then (if Rleb 0 y then atan (y / x) + PI else atan (y / x) - PI)
  else if Rltb 0 y then PI / 2 else if Rltb y 0 then - (PI / 2) else 0.
(* np.degrees *)
Definition degrees (a : R) : R := a * 180 / PI.

Section WithGalpy.
Variable G : galpy.

(* util/units.py:22-114.  x is a number expressed in `units`, the result is in the units of the cluster.  AMUSE
   quantities are represented by their value in parsec, km/s, Myr, MSun, so `| u.parsec` and value_in are the
   identity.  The in-place update of an array argument (x*=...) is not modelled here. *)
Definition convert_length (x : R) (units : usys) (c : cluster) : R :=
  let s := c_sc c in let zgc := sz (p_g (c_ph c)) in
  match c_units c with
  | None => x                                       (* no branch matches cluster.units=None *)
  | Some cu =>
    if usys_eq_dec units cu then x else             (* 44 *)
    match units with
    | Unbody => match cu with                       (* 46-57 *)
      | Upckms | Upcmyr | Uamuse => x * rbar s
      | Ukpckms | Ukpcgyr | UWD => x * (rbar s / 1000)
      | Ugalpy => x * (rbar s / 1000 / ro s)
      | Uradec => degrees (atan2 (x * (rbar s / 1000)) zgc)
      | Unbody => x end
    | Upckms | Upcmyr | Uamuse => match cu with      (* 59-73 *)
      | Unbody => x / rbar s
      | Ukpckms | Ukpcgyr | UWD => x / 1000
      | Ugalpy => x / (1000 * ro s)
      | Uradec => degrees (atan2 (x / 1000) zgc)
      | _ => x end
    | Ukpckms | Ukpcgyr | UWD => match cu with       (* 75-85 *)
      | Unbody => x * (1000 / rbar s)
      | Upckms | Upcmyr | Uamuse => x * 1000
      | Ugalpy => x / ro s
      | Uradec => degrees (atan2 x zgc)
      | _ => x end
    | Ugalpy => match cu with                       (* 87-98 *)
      | Upckms | Upcmyr | Uamuse => x * (1000 * ro s)
      | Ukpckms | Ukpcgyr | UWD => x * ro s
      | Unbody => x * (ro s * 1000 / rbar s)
      | Uradec => degrees (atan2 (x * ro s) zgc)
      | Ugalpy => x end
    | Uradec =>                                     (* 100-112 *)
      let g := p_g (c_ph c) in
      let dist := sqrt (sx g ^ 2 + sy g ^ 2 + sz g ^ 2) in
      let x' := tan (radians x) * dist in
      match cu with
      | Unbody => x' * (1000 / rbar s)
      | Upckms | Upcmyr | Uamuse => x' * 1000
      | Ugalpy => x' / ro s
      | _ => x' end
    end
  end.

(* util/units.py:116-201 *)
Definition convert_velocity (x : R) (units : usys) (c : cluster) : R :=
  let s := c_sc c in
  match c_units c with
  | None => match units with Upcmyr | Ukpcgyr => x / kms | _ => x end
  | Some cu =>
    if usys_eq_dec units cu then x else
    match units with
    | Unbody => match cu with                       (* 139-153 *)
      | Upckms | Uamuse | Ukpckms | UWD => x * vbar s
      | Upcmyr | Ukpcgyr => x * vbar s * kms
      | Ugalpy => x * (vbar s / vo s)
      | _ => x end
    | Upckms | Upcmyr | Uamuse =>                    (* 156-169 *)
      let x1 := match units with Upcmyr => x / kms | _ => x end in
      match cu with
      | Unbody => x1 / vbar s
      | Ugalpy => x1 / vo s
      | _ => x1 end
    | Ukpckms | Ukpcgyr | UWD =>                     (* 171-181 *)
      let x1 := match units with Ukpcgyr => x / kms | _ => x end in
      match cu with
      | Unbody => x1 / vbar s
      | Ugalpy => x1 / vo s
      | _ => x1 end
    | Ugalpy => match cu with                       (* 183-195 *)
      | Upckms | Uamuse => x * vo s
      | Upcmyr => x * vo s * kms
      | Ukpckms | Ukpcgyr | UWD => x * vo s
      | Unbody => x * (vo s / vbar s)
      | _ => x end
    | Uradec => x                                   (* 197-198 *)
    end
  end.

(* util/units.py:203-296; in the galpy branch the tests at 281 and 285 are on `units`, which is 'galpy' there, so
   the corrections never apply *)
Definition convert_square_velocity (x : R) (units : usys) (c : cluster) : R :=
  let s := c_sc c in
  match c_units c with
  | None => match units with Upcmyr | Ukpcgyr => x / kms ^ 2 | _ => x end
  | Some cu =>
    if usys_eq_dec units cu then x else
    match units with
    | Unbody => match cu with                       (* 228-242 *)
      | Upckms | Uamuse | Ukpckms | UWD => x * vbar s ^ 2
      | Upcmyr | Ukpcgyr => x * vbar s ^ 2 * kms ^ 2
      | Ugalpy => x * (vbar s / vo s) ^ 2
      | _ => x end
    | Upckms | Upcmyr | Uamuse =>                    (* 245-260 *)
      let x1 := match units with Upcmyr => x / kms ^ 2 | _ => x end in
      match cu with
      | Unbody => x1 / vbar s ^ 2
      | Ugalpy => x1 / vo s ^ 2
      | _ => x1 end
    | Ukpckms | Ukpcgyr | UWD =>                     (* 262-274 *)
      let x1 := match units with Ukpcgyr => x / kms ^ 2 | _ => x end in
      match cu with
      | Unbody => x1 / vbar s ^ 2
      | Ugalpy => x1 / vo s ^ 2
      | _ => x1 end
    | Ugalpy => match cu with                       (* 276-290 *)
      | Upckms | Uamuse | Upcmyr => x * vo s ^ 2
      | Ukpckms | Ukpcgyr | UWD => x * vo s ^ 2
      | Unbody => x * (vo s / vbar s) ^ 2
      | _ => x end
    | Uradec => x                                   (* 292-293 *)
    end
  end.

(* util/units.py:298-384 *)
Definition convert_time (x : R) (units : usys) (c : cluster) : R :=
  let s := c_sc c in let to := time_in_Gyr G (ro s) (vo s) in
  match c_units c with
  | None => x
  | Some cu =>
    if usys_eq_dec units cu then x else
    match units with
    | Unbody => match cu with                       (* 325-335 *)
      | Upckms | Upcmyr | Uamuse => x * tbar s
      | Ukpckms | Ukpcgyr | UWD | Uradec => x * (tbar s / 1000)
      | Ugalpy => x * (tbar s / 1000 / to)
      | Unbody => x end
    | Upckms | Upcmyr | Uamuse => match cu with      (* 337-349 *)
      | Unbody => x / tbar s
      | Ukpckms | Ukpcgyr | UWD | Uradec => x / 1000
      | Ugalpy => x / (1000 * to)
      | _ => x end
    | Ukpckms | Ukpcgyr | UWD => match cu with       (* 351-359 *)
      | Unbody => x * (1000 / tbar s)
      | Upckms | Upcmyr | Uamuse => x * 1000
      | Ugalpy => x / to
      | _ => x end
    | Ugalpy => match cu with                       (* 361-371 *)
      | Upckms | Upcmyr | Uamuse => x * (1000 * to)
      | Ukpckms | Ukpcgyr | UWD | Uradec => x * to
      | Unbody => x * (to * 1000 / tbar s)
      | Ugalpy => x end
    | Uradec => match cu with                       (* 373-382 *)
      | Unbody => x * (1000 / tbar s)
      | Upckms | Upcmyr | Uamuse => x * 1000
      | Ugalpy => x / to
      | _ => x end
    end
  end.

(* util/units.py:386-453.  coords (galpy.util.coords) has no attribute mass_in_msol (it is in
   galpy.util.conversion), so every branch that reaches it raises AttributeError. *)
Definition convert_mass (x : R) (units : usys) (c : cluster) : result R :=
  let s := c_sc c in
  match c_units c with
  | None => match units with
            | Unbody => Ok (x * zmbar s) | Ugalpy => Raise | UWD => Ok (x * wd_mcon) | _ => Ok x end
  | Some cu =>
    if usys_eq_dec units cu then Ok x else
    match units with
    | Unbody => match cu with                       (* 411-418 *)
      | Ugalpy => Raise
      | UWD => Ok (x * zmbar s / wd_mcon)
      | _ => Ok (x * zmbar s) end
    | Ugalpy => Raise                               (* 420-428 *)
    | UWD => match cu with                          (* 430-438 *)
      | Unbody => Ok (x * wd_mcon / zmbar s)
      | Ugalpy => Raise
      | _ => Ok (x * wd_mcon) end
    | _ => match cu with                            (* 440-451 *)
      | Unbody => Ok (x / zmbar s)
      | Ugalpy => Raise
      | UWD => Ok (x / wd_mcon)
      | _ => Ok x end
    end
  end.

(* util/units.py:455-561 (conversions to or from radec are not modelled: Raise stands for them too) *)
Definition convert_density (x : R) (units : usys) (c : cluster) (projected : bool) : result R :=
  let s := c_sc c in let p := if projected then 2%nat else 3%nat in
  match c_units c with
  | None => convert_mass x units c
  | Some cu =>
    if usys_eq_dec units cu then Ok x else
    match convert_mass x units c with
    | Raise => Raise
    | Ok x =>
      match units with
      | Unbody => match cu with                      (* 490-502 *)
        | Upckms | Upcmyr | Uamuse => Ok (x / rbar s ^ p)
        | Ukpckms | Ukpcgyr | UWD => Ok (x / (rbar s / 1000) ^ p)
        | Ugalpy => Ok (x / (rbar s / 1000 / ro s) ^ p)
        | _ => Raise end
      | Upckms | Upcmyr | Uamuse => match cu with     (* 505-517 *)
        | Unbody => Ok (x * rbar s ^ p)
        | Ukpckms | Ukpcgyr | UWD => Ok (x * 1000 ^ p)
        | Ugalpy => Ok (x * (1000 * ro s) ^ p)
        | Uradec => Raise
        | _ => Ok x end
      | Ukpckms | Ukpcgyr | UWD => match cu with      (* 519-530 *)
        | Unbody => Ok (x * (rbar s / 1000) ^ p)
        | Upckms | Upcmyr | Uamuse => Ok (x / 1000 ^ p)
        | Ugalpy => Ok (x * ro s ^ p)
        | Uradec => Raise
        | _ => Ok x end
      | Ugalpy => match cu with                      (* 532-544 *)
        | Upckms | Upcmyr | Uamuse => Ok (x / (1000 * ro s) ^ 3)
        | Ukpckms | Ukpcgyr | UWD => Ok (x / ro s ^ p)
        | Unbody => Ok (x / (ro s * 1000 / rbar s) ^ p)
        | _ => Raise end
      | Uradec => Raise
      end
    end
  end.
End WithGalpy.

(* util/constants.py:79-100 *)
Definition get_grav (c : cluster) : R :=
  match c_units c with
  | Some Unbody => 1
  | Some Upckms | Some Uamuse => 4302 / 1000000
  | Some Upcmyr => (4302 / 1000000) * kms ^ 2
  | Some Ukpckms => 4302 / 1000000000
  | Some Ukpcgyr => (4302 / 1000000000) * kms ^ 2
  | _ => 1
  end.
