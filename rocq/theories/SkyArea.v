(** Model of the survey footprint maps.
    /repo/rubin_scheduler/scheduler/utils/sky_area.py.
    Numbers are exact.  The coordinates of the pixels (healpy, astropy), the angular
    separation, the smoothing of the dust map and the test for a point in the Euclid
    polygon are inputs.  Separations are taken in degrees throughout, where
    [_set_circular_region] 280-292 turns both sides to radians. *)
From Coq Require Import List ZArith QArith Qround Qabs Bool String.
From Verif Require Import Base Script IntRounded.
Import ListNotations.
Open Scope nat_scope.

(** A pixel: equatorial, ecliptic and galactic coordinates in degrees 253-258, and whether
    [self.low_dust] 260-265 is 1 there. *)
Record spix := SPix {
  g_ra : Q; g_dec : Q; g_elat : Q; g_glon : Q; g_glat : Q; g_low : bool }.

(** The parameters of [__init__] 184-250; [a_gdec] is [gal_dec_max]. *)
Record area := Area {
  a_lmc : Q * Q; a_lmcr : Q; a_smc : Q * Q; a_smcr : Q; a_vir : Q * Q; a_virr : Q;
  a_scp : Q; a_long1 : Q; a_long2 : Q; a_latmax : Q; a_center : Q; a_end : Q; a_gdec : Q;
  a_ldmin : Q; a_ldmax : Q; a_halves : Q; a_dpmin : Q; a_dpmax : Q;
  a_emin : Q; a_emax : Q; a_edec : Q; a_glon : Q }.

(** Lines 260-265: dust below the limit, smoothed, above the cutoff. *)
Definition low_dust (smooth : list Q -> list Q) (limit cutoff : Q) (dust : list Q) : list bool :=
  map (fun x => Qltb cutoff x) (smooth (map (fun d => if Qltb d limit then 1%Q else 0%Q) dust)).

(** [read_dustmap] 267-278; the file is named only without an argument. *)
Definition read_dustmap {A} (load : string -> A) (name : string -> string)
    (file datadir : option string) : res A :=
  match file with
  | Some _ => Raise UnboundLocalError
  | None => match datadir with None => Raise RuntimeError | Some d => Ok (load (name d)) end
  end.

Section Area.
Variable sep : Q -> Q -> Q -> Q -> Q.        (* ra, dec, ra, dec *)
Variable inpoly : Q -> Q -> bool.            (* Polygon.contains(Point(x, y)) 986-987 *)
Variable P : area.

(** [_set_circular_region] 280-292. *)
Definition circle (c : Q * Q) (r : Q) (g : spix) : bool :=
  Qltb (sep (fst c) (snd c) (g_ra g) (g_dec g)) r.

(** [_set_bulge_diamond] 294-337. *)
Definition diamond (g : spix) : bool :=
  let inside := Qltb (Qabs (g_glat g)) (a_center P) in
  let len := Qmod (a_long2 P - a_long1 P) 360 in
  if Qltb 0 len then
    let cut := Qltb (Qmod (g_glon g - a_long1 P) 360) len in
    let half := (len / 2)%Q in
    let slope := ((a_center P - a_end P) / half)%Q in
    let center := Qmod (a_long1 P + half) 360 in
    let d := Qmod (g_glon g - center) 360 in
    let d := Qabs (if Qltb 180 d then Qmod (180 - d) 180 else d) in
    let limit := Qabs (a_center P - slope * d) in
    inside && cut && Qltb (Qabs (g_glat g)) limit
  else inside.

(** [_set_bulge_rectangle] 339-366. *)
Definition rectangle (g : spix) : bool :=
  let inside := Qltb (Qabs (g_glat g)) (a_latmax P) in
  let len := Qmod (a_long2 P - a_long1 P) 360 in
  if Qltb 0 len then inside && Qltb (Qmod (g_glon g - a_long1 P) 360) len else inside.

(** A map and labels as [return_maps] holds them: for each pixel its label and its row. *)
Definition row := list Q.
Definition sky := list (string * row).
Definition bands : list string := ["u"; "g"; "r"; "i"; "z"; "y"]%string.
Definition ratios := list (string * Q).

Fixpoint field (b : string) (l : list string) : option nat :=
  match l with
  | [] => None
  | x :: r => if String.eqb b x then Some 0 else option_map S (field b r)
  end.
Fixpoint put (k : nat) (q : Q) (l : row) : row :=
  match l, k with [], _ => [] | _ :: r, 0 => q :: r | x :: r, S k => x :: put k q r end.
(** [self.healmaps[bandname][indx] = band_ratios[bandname]] for one pixel; a name that is
    no field raises. *)
Fixpoint fill (rs : ratios) (w : row) : res row :=
  match rs with
  | [] => Ok w
  | (b, q) :: rest => match field b bands with
                      | None => Raise ValueError
                      | Some k => fill rest (put k q w)
                      end
  end.
(** The last four lines of every [add_] method (382-385 and alike): pixels that are inside
    and have no label get the label, cut to 20 characters, and the ratios.  A field is
    looked up even if no pixel is chosen. *)
Fixpoint paint_in (label : string) (rs : ratios) (inside : list bool) (s : sky) : res sky :=
  match inside, s with
  | b :: bs, (l, w) :: r =>
      bind (if b && String.eqb l "" then bind (fill rs w) (fun w' => Ok (trunc 20 label, w')) else Ok (l, w))
        (fun x => bind (paint_in label rs bs r) (fun xs => Ok (x :: xs)))
  | _, _ => Ok []
  end.
Definition paint (label : string) (rs : ratios) (inside : list bool) (s : sky) : res sky :=
  bind (fill rs [0; 0; 0; 0; 0; 0]%Q) (fun _ => paint_in label rs inside s).

(** [min] and [max] of an array; an empty one raises. *)
Definition qmin_of (l : list Q) : res Q :=
  match l with [] => Raise ValueError
  | x :: r => Ok (fold_left (fun a y => if Qltb y a then y else a) r x) end.
Definition qmax_of (l : list Q) : res Q :=
  match l with [] => Raise ValueError
  | x :: r => Ok (fold_left (fun a y => if Qltb a y then y else a) r x) end.

(** [add_magellanic_clouds] 387-422. *)
Definition clouds (g : spix) : bool := circle (a_lmc P) (a_lmcr P) g || circle (a_smc P) (a_smcr P) g.
Definition bridge (lo hi : Q) (g : spix) : bool :=
  (Qltb (fst (a_smc P)) (g_ra g) && Qltb (g_ra g) (fst (a_lmc P))) &&
  (Qltb lo (g_dec g) && Qltb (g_dec g) hi).
Definition add_clouds (px : list spix) (rs : ratios) (s : sky) : res sky :=
  let decs := map g_dec (filter clouds px) in
  bind (qmin_of decs) (fun lo => bind (qmax_of decs) (fun hi =>
    paint "LMC_SMC" rs (map (fun g => clouds g || bridge lo hi g) px) s)).

(** [add_lowdust_wfd] 470-499. *)
Definition lowdust (g : spix) : bool :=
  let d := Qltb (a_ldmin P) (g_dec g) && Qltb (g_dec g) (a_ldmax P) && g_low g in
  let d := if negb (g_low g) then false else d in
  if Qltb 0 (a_halves P) then
    (if Qltb (g_glat g) 0 && Qltb (a_ldmax P - a_halves P)%Q (g_dec g) then false else d)
  else d.
Definition add_lowdust (px : list spix) (rs : ratios) : sky -> res sky :=
  paint "lowdust" rs (map lowdust px).

(** [add_virgo_cluster] 368-385. *)
Definition add_virgo (px : list spix) (rs : ratios) : sky -> res sky :=
  paint "virgo" rs (map (circle (a_vir P) (a_virr P)) px).

(** [add_bulge] 441-468. *)
Definition bulge (g : spix) : bool :=
  let b2 := if Qltb 0 (g_glat g) then false else rectangle g in
  let b := diamond g || b2 in
  if Qltb (a_latmax P) (Qabs (g_glat g)) then false else b.
Definition add_bulge (px : list spix) (rs : ratios) : sky -> res sky :=
  paint "bulge" rs (map bulge px).

(** [add_bulgy] 787-809 and 1189-1210: one circle after the other; the separation is asked
    for from the pixel to the point. *)
Definition point := (Q * Q * Q)%type.
Definition in_point (p : point) (g : spix) : bool :=
  Qltb (sep (g_ra g) (g_dec g) (fst (fst p)) (snd (fst p))) (snd p).
Fixpoint add_bulgy (px : list spix) (rs : ratios) (pts : list point) (s : sky) : res sky :=
  match pts with
  | [] => Ok s
  | p :: r => bind (paint "bulgy" rs (map (in_point p) px) s) (add_bulgy px rs r)
  end.
Definition points_gal : list point :=
  [ (10090#100, 955#100, 3); (8492#100, -571#100, 3); (28884#100, 918#100, 38#10);
    (2663#10, -29, 145#10); (279, -13, 10); (256, -45, 5); (155, -565#10, 65#10);
    (172, -62, 5); (190, -65, 5); (210, -64, 5); (242, -58, 5); (225, -60, 65#10) ]%Q.
Definition points_three : list point :=
  [ (10090#100, 955#100, 3); (8492#100, -571#100, 3); (2663#10, -29, 17); (279, -13, 10);
    (256, -45, 11); (155, -565#10, 65#10); (172, -62, 5); (190, -65, 5); (210, -64, 5);
    (242, -58, 65#10); (225, -60, 65#10) ]%Q.

(** [add_nes] 523-547. *)
Definition nes (g : spix) : bool :=
  let n := (Qltb (a_emin P) (g_elat g) || Qltb (a_edec P) (g_dec g)) && Qltb (g_elat g) (a_emax P) in
  let n := if Qltb (g_glon g) (a_glon P) then false else n in
  if Qltb (360 - a_glon P)%Q (g_glon g) then false else n.
Definition add_nes (px : list spix) (rs : ratios) : sky -> res sky :=
  paint "nes" rs (map nes px).

(** [add_dusty_plane] 501-521. *)
Definition dusty (g : spix) : bool :=
  Qltb (a_dpmin P) (g_dec g) && Qltb (g_dec g) (a_dpmax P) && negb (g_low g).
Definition add_dusty (px : list spix) (rs : ratios) : sky -> res sky :=
  paint "dusty_plane" rs (map dusty px).

(** [add_euclid_overlap] 959-993: right ascensions over 180 are taken less 360. *)
Definition euclid (g : spix) : bool :=
  inpoly (if Qltb 180 (g_ra g) then g_ra g - 360 else g_ra g)%Q (g_dec g).
Definition add_euclid (px : list spix) (rs : ratios) : sky -> res sky :=
  paint "euclid_overlap" rs (map euclid px).

(** [add_scp] 424-439. *)
Definition scp (g : spix) : bool := Qltb (g_dec g) (a_scp P).
Definition add_scp (px : list spix) (rs : ratios) : sky -> res sky :=
  paint "scp" rs (map scp px).

(** The four generators. *)
Inductive kind := KBase | KGal | KEuclid | KThree.
Record rset := RSet {
  r_mc : ratios; r_ld : ratios; r_vir : ratios; r_bul : ratios; r_nes : ratios;
  r_dp : ratios; r_euc : ratios; r_scp : ratios }.

Definition zero_sky (n : nat) : sky := repeat (""%string, [0; 0; 0; 0; 0; 0]%Q) n.
(** [return_maps] 616-635, 878-890, 1066-1085 and 1237-1256. *)
Definition return_maps (k : kind) (px : list spix) (R : rset) : res sky :=
  bind (add_clouds px (r_mc R) (zero_sky (List.length px))) (fun s =>
  bind (add_lowdust px (r_ld R) s) (fun s =>
  bind (add_virgo px (r_vir R) s) (fun s =>
  bind (match k with
        | KBase => add_bulge px (r_bul R) s
        | KThree => add_bulgy px (r_bul R) points_three s
        | _ => add_bulgy px (r_bul R) points_gal s
        end) (fun s =>
  bind (add_nes px (r_nes R) s) (fun s =>
  bind (add_dusty px (r_dp R) s) (fun s =>
  bind (match k with
        | KEuclid | KThree => add_euclid px (r_euc R) s
        | _ => Ok s
        end) (fun s =>
  add_scp px (r_scp R) s))))))).
End Area.

(** The sum over the bands 667 and 698. *)
Definition qsum (l : list Q) : Q := fold_right Qplus 0%Q l.
Definition sum_map (s : sky) : list Q := map (fun x => qsum (snd x)) s.

(** [estimate_visits] 665-677, for a sum that is not 0 (else numpy gives nan or inf). *)
Definition estimate_visits (nvis fov area : Q) (s : sky) : list row * list Q :=
  let norm := qsum (sum_map s) in
  let per := (fov / area)%Q in
  (map (fun x => map (fun w => w / norm * per * nvis)%Q (snd x)) s,
   map (fun w => w / norm * per * nvis)%Q (sum_map s)).

(** [np.unique(labels)] 699: the labels, each once; their order is not modelled (the order
    of first meeting is taken), it is the order of the keys of the answer only. *)
Fixpoint once (l : list string) : list string :=
  match l with
  | [] => []
  | x :: r => x :: filter (fun y => negb (String.eqb y x)) (once r)
  end.
Definition label_sum (s : sky) (l : string) : Q :=
  qsum (map (fun x => qsum (snd x)) (filter (fun x => String.eqb (fst x) l) s)).
(** [estimate_visits_per_label] 697-709. *)
Definition per_label (nvis : Q) (s : sky) : list (string * Q) :=
  let ul := once (map fst s) in
  let norm := fold_left (fun a l => a + label_sum s l)%Q ul 0%Q in
  map (fun l => (l, label_sum s l / norm * nvis)%Q) ul.

(** [band_count_ratios] 107-124 for a dictionary of arrays of numbers and nan ([None]),
    for a sum that is not 0. *)
Definition band_counts (m : list (string * list (option Q))) : list (string * Q) :=
  let good := fun l : list (option Q) => flat_map (fun x => match x with Some q => if Qltb 0 q then [q] else [] | None => [] end) l in
  let sums := map (fun kv => (fst kv, qsum (good (snd kv)))) m in
  let norm := fold_left (fun a kv => a + snd kv)%Q sums 0%Q in
  map (fun kv => (fst kv, snd kv / norm)%Q) sums.

(** [generate_all_sky] 82-94: the map; [lat] and [limit] are in radians like the
    declinations. *)
Definition all_sky (halfpi lat limit : Q) (mask : er) (decs : list Q) : res (list er) :=
  bind (ir_ge (map (fun d => halfpi - Qabs (d - lat))%Q decs) [limit])
    (fun bs => Ok (map (fun b : bool => if b then EFin 0 else mask) bs)).
