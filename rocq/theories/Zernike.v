(** Zernike polynomials: /repo/rubin_scheduler/utils/zernike_module.py lines 8-258.
    Numbers are reals (float rounding is not modelled), nan is [None]; orders are integers, so the
    tests of type in _validate_nm are left out.  Dictionaries are lists of pairs, newest first. *)
From Coq Require Import List Bool Reals ZArith.
From Verif Require Import Base.
Import ListNotations.
Open Scope R_scope.

(** ** Factorials, lines 8-36 *)
Record factorials := Factorials { f_values : list (Z * Z); f_max : Z }.
Definition fac_init : factorials := Factorials [(0, 1); (1, 1)]%Z 1.
Definition fac_get (f : factorials) (i : Z) : option Z :=
  match find (fun kv => Z.eqb (fst kv) i) (f_values f) with Some kv => Some (snd kv) | None => None end.
(** The loop of lines 31-33, [count] steps from [ii]. *)
Fixpoint fac_grow (count : nat) (ii val : Z) (values : list (Z * Z)) : list (Z * Z) :=
  match count with
  | O => values
  | S count => let val := (val * (ii + 1))%Z in fac_grow count (ii + 1) val ((ii + 1, val)%Z :: values)
  end.
(** evaluate, lines 19-36. *)
Definition fac_evaluate (num : Z) (f : factorials) : res Z * factorials :=
  if (num <? 0)%Z then (Raise RuntimeError, f)
  else match fac_get f num with
       | Some v => (Ok v, f)
       | None =>
           match fac_get f (f_max f) with
           | None => (Raise KeyError, f)
           | Some val =>
               let f := Factorials (fac_grow (Z.to_nat (num - f_max f)) (f_max f) val (f_values f)) num in
               (match fac_get f num with Some v => Ok v | None => Raise KeyError end, f)
           end
       end.

(** ** The generator, lines 39-50 *)
Record generator := Generator { g_fac : factorials; g_poly : list ((Z * Z) * list (R * Z)) }.
Definition gen_init : generator := Generator fac_init [].
Definition poly_get (g : generator) (nm : Z * Z) : option (list (R * Z)) :=
  match find (fun kv => (Z.eqb (fst (fst kv)) (fst nm) && Z.eqb (snd (fst kv)) (snd nm))%bool) (g_poly g) with Some kv => Some (snd kv) | None => None end.
(** _validate_nm, lines 52-76. *)
Definition validate_nm (n m : Z) : res (Z * Z) :=
  if (n <? 0)%Z then Raise RuntimeError else if (m <? 0)%Z then Raise RuntimeError else if (n <? m)%Z then Raise RuntimeError else Ok (n, m).
(** One coefficient and power of _make_polynomial, lines 105-115. *)
Definition make_term (n m k : Z) (f : factorials) : res (R * Z) * factorials :=
  let sgn := if (k mod 2 =? 0)%Z then 1 else -1 in
  match fac_evaluate (n - k) f with
  | (Raise e, f) => (Raise e, f)
  | (Ok num_fac, f) =>
      match fac_evaluate k f with
      | (Raise e, f) => (Raise e, f)
      | (Ok k_fac, f) =>
          match fac_evaluate ((n + m) / 2 - k) f with
          | (Raise e, f) => (Raise e, f)
          | (Ok d1_fac, f) =>
              match fac_evaluate ((n - m) / 2 - k) f with
              | (Raise e, f) => (Raise e, f)
              | (Ok d2_fac, f) => (Ok (sgn * IZR num_fac / IZR (k_fac * d1_fac * d2_fac), (n - 2 * k)%Z), f)
              end
          end
      end
  end.
Fixpoint make_terms (n m : Z) (ks : list Z) (f : factorials) : res (list (R * Z)) * factorials :=
  match ks with
  | [] => (Ok [], f)
  | k :: ks =>
      match make_term n m k f with
      | (Raise e, f) => (Raise e, f)
      | (Ok t, f) => match make_terms n m ks f with (Raise e, f) => (Raise e, f) | (Ok ts, f) => (Ok (t :: ts), f) end
      end
  end.
(** _make_polynomial, lines 78-118. *)
Definition make_polynomial (n m : Z) (g : generator) : res unit * generator :=
  let n_coeffs := (1 + (n - m) / 2)%Z in
  match make_terms n m (map Z.of_nat (seq 0 (Z.to_nat n_coeffs))) (g_fac g) with
  | (Raise e, f) => (Raise e, Generator f (g_poly g))
  | (Ok ts, f) => (Ok tt, Generator f (((n, m), ts) :: g_poly g))
  end.

(** _evaluate_radial_number, lines 120-135. *)
Definition radial_number (r : R) (poly : list (R * Z)) : option R :=
  if Rlt_dec 1 r then None
  else Some (fold_right Rplus 0 (map (fun cp => fst cp * r ^ Z.to_nat (snd cp)) poly)).
(** One value of _evaluate_radial_array, lines 137-162: exp of -1e10 times a positive power is 0 and
    times 0 is 1. *)
Definition radial_array_at (r : R) (poly : list (R * Z)) : option R :=
  let power (p : Z) := if Rlt_dec 0 r then exp (ln r * IZR p) else if (p =? 0)%Z then 1 else 0 in
  if Rlt_dec r 1 then Some (fold_right Rplus 0 (map (fun cp => power (snd cp) * fst cp) poly)) else None.
(** A number or an array. *)
Inductive arg := Number (r : R) | Array (l : list R).
Inductive value := VNumber (v : option R) | VArray (l : list (option R)).
(** _evaluate_radial, lines 164-195. *)
Definition evaluate_radial (r : arg) (n m : Z) (g : generator) : res value * generator :=
  match validate_nm n m with
  | Raise e => (Raise e, g)
  | Ok nm =>
      if ((fst nm - snd nm) mod 2 =? 1)%Z then
        (Ok (match r with Number _ => VNumber (Some 0) | Array l => VArray (map (fun _ => Some 0) l) end), g)
      else
        let '(made, g) := match poly_get g nm with Some _ => (Ok tt, g) | None => make_polynomial (fst nm) (snd nm) g end in
        match made with
        | Raise e => (Raise e, g)
        | Ok _ =>
            match poly_get g nm with
            | None => (Raise KeyError, g)
            | Some poly =>
                (Ok (match r with Number r => VNumber (radial_number r poly) | Array l => VArray (map (fun r => radial_array_at r poly) l) end), g)
            end
        end
  end.
(** The angular part, lines 213-215. *)
Definition angular (m : Z) (phi : R) : R := if (0 <=? m)%Z then cos (IZR m * phi) else sin (IZR m * phi).
(** evaluate, lines 197-215; [phi] is a number, or an array as long as [r]. *)
Definition evaluate (r phi : arg) (n m : Z) (g : generator) : res value * generator :=
  match evaluate_radial r n (Z.abs m) g with
  | (Raise e, g) => (Raise e, g)
  | (Ok radial, g) =>
      (match radial, phi with
       | VNumber v, Number p => Ok (VNumber (option_map (fun x => x * angular m p) v))
       | VArray l, Number p => Ok (VArray (map (option_map (fun x => x * angular m p)) l))
       | VNumber v, Array ps => Ok (VArray (map (fun p => option_map (fun x => x * angular m p) v) ps))
       | VArray l, Array ps =>
           if Nat.eqb (length l) (length ps) then Ok (VArray (map (fun vp => option_map (fun x => x * angular m (snd vp)) (fst vp)) (combine l ps))) else Raise ValueError
       end, g)
  end.
(** norm, lines 217-231. *)
Definition norm (n m : Z) : res R :=
  match validate_nm n (Z.abs m) with
  | Raise e => Raise e
  | Ok nm => let eps := if (snd nm =? 0)%Z then 2 else 1 in Ok (eps * PI / IZR (fst nm * 2 + 2))
  end.
(** evaluate_xy, lines 233-258, for numbers. *)
Definition polar (x y : R) : R * R :=
  let r := sqrt (x ^ 2 + y ^ 2) in
  let cos_phi := if Rlt_dec 0 r then x / r else 0 in
  let phi := if Rle_dec 0 y then acos cos_phi else 0 - acos cos_phi in
  (r, phi).
Definition evaluate_xy (x y : R) (n m : Z) (g : generator) : res value * generator :=
  let '(r, phi) := polar x y in evaluate (Number r) (Number phi) n m g.

(** The state after any calls of evaluate. *)
Inductive call := Call (r phi : arg) (n m : Z).
Definition after (calls : list call) : generator :=
  fold_left (fun g c => let '(Call r phi n m) := c in snd (evaluate r phi n m g)) calls gen_init.
