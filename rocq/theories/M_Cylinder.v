(** Geometry of the unstructured cylinder mesh (dream/mesh.py:821-972).

    The geometry kernel is represented by sets of points: a face is the set of
    points it covers with its name and its largest element size; a difference
    or product of shapes keeps names and sizes of the first operand; [Glue]
    keeps all faces.  Lengths are reals. *)
From Coq Require Import Reals String List Bool Arith.
From Verif Require Import Base.
Import ListNotations.
Local Open Scope R_scope.

(** A face (dream/mesh.py:857-921): the points covered, [face.name],
    [face.maxh]; [None] until assigned. *)
Record face := mk_face {
  covers : R * R -> Prop;
  face_name : option string;
  face_maxh : option R }.

(** A shape is a list of faces (dream/mesh.py:857-921). *)
Definition shape : Type := list face.

(** A point lies in some face of a shape (dream/mesh.py:867, 878, 895-896, 917). *)
Definition in_shape (s : shape) (p : R * R) : Prop := exists f, In f s /\ covers f p.

(** [wp.Circle(r).Face()] at the origin (dream/mesh.py:857, 864, 875, 883)
    and the two half circles of lines 902-905. *)
Definition circle (r : R) : face :=
  mk_face (fun p => fst p ^ 2 + snd p ^ 2 <= r ^ 2) None None.

(** [s - t] (dream/mesh.py:867, 878, 895, 913, 917). *)
Definition minus_ (s t : shape) : shape :=
  map (fun f => mk_face (fun p => covers f p /\ ~ in_shape t p) (face_name f) (face_maxh f)) s.

(** [s * t] (dream/mesh.py:896, 917). *)
Definition times (s t : shape) : shape :=
  map (fun f => mk_face (fun p => covers f p /\ in_shape t p) (face_name f) (face_maxh f)) s.

(** [Glue([...])] (dream/mesh.py:867, 878, 915, 917, 919, 921). *)
Definition glue (l : list shape) : shape := concat l.

(** [for face in s.faces: face.name = n] (dream/mesh.py:868-869, 879-880,
    885-886, 898-899, 911-912). *)
Definition named (n : string) (s : shape) : shape :=
  map (fun f => mk_face (covers f) (Some n) (face_maxh f)) s.

(** [face.maxh = h] (dream/mesh.py:865-866, 876-877, 884, 897, 914). *)
Definition sized (h : R) (s : shape) : shape :=
  map (fun f => mk_face (covers f) (face_name f) (Some h)) s.

(** [np.linspace(a, b, n + 1)] (dream/mesh.py:863, 872). *)
Definition linspace (a b : R) (n : nat) : list R :=
  map (fun i => a + (b - a) * (INR i / INR n)) (seq 0 (n + 1)).

(** [x ** g] for 0 <= x (dream/mesh.py:872); the infinity that numpy has for a
    negative power of zero is not represented. *)
Definition power (x g : R) : R :=
  if Req_EM_T x 0 then (if Req_EM_T g 0 then 1 else 0) else Rpower x g.

(** [np.diff(l)] (dream/mesh.py:874). *)
Fixpoint diff (l : list R) : list R :=
  match l with
  | x :: (y :: _) as rest => (y - x) :: diff rest
  | _ => []
  end.

(** The keyword arguments that are numbers (dream/mesh.py:821-832). *)
Record sizes := mk_sizes {
  radius : R;
  sponge_layer : bool;
  bl_levels : nat;
  bl_thickness : R;
  tr_levels : nat;
  tr_growth : R;
  tr_factor : R;
  ff_factor : R;
  sp_factor : R;
  wake_maxh : R;
  ff_maxh : R;
  sp_maxh : R }.

(** [tr_radial_levels] (dream/mesh.py:849-850, 872-873). *)
Definition tr_radii (a : sizes) : list R :=
  let bl := radius a + bl_thickness a in
  let tr := tr_factor a * radius a in
  map (fun x => bl + (tr - bl) * power x (tr_growth a)) (linspace 0 1 (tr_levels a)).

(** The circles of the transition regime, the outermost first, each with the
    size [zip] pairs it with (dream/mesh.py:874-877). *)
Definition tr_faces (a : sizes) : shape :=
  map (fun p => mk_face (covers (circle (fst p))) None (Some (snd p)))
      (combine (rev (tl (tr_radii a))) (diff (tr_radii a))).

(** The wake (dream/mesh.py:889-895): left half of a disc and a rectangle up to
    the far field, counter-clockwise. *)
Definition wake_face (wr ff : R) : face :=
  mk_face (fun p => (fst p <= 0 /\ fst p ^ 2 + snd p ^ 2 <= wr ^ 2) \/
                    (0 <= fst p <= ff /\ - wr <= snd p <= wr)) None None.

(** The boundary layer (dream/mesh.py:861-869): absent without thickness; no
    levels make the division at line 862 fail. *)
Definition boundary_layer (a : sizes) (mat : string) : result shape :=
  if Rlt_dec 0 (bl_thickness a) then
    match bl_levels a with
    | O => Err ZeroDivisionError
    | _ =>
        let h := bl_thickness a / INR (bl_levels a) in
        let radii := linspace (radius a) (radius a + bl_thickness a) (bl_levels a) in
        Ok (named mat (minus_ (glue (map (fun r => sized h [circle r]) (rev (tl radii))))
                              [circle (radius a)]))
    end
  else Ok [].

(** The shape that is meshed (dream/mesh.py:841-921).  Without transition
    levels the name [maxh] is unbound at line 889. *)
Definition cylinder_geometry (a : sizes) (mat : string * string) : result shape :=
  if Rlt_dec (bl_thickness a) 0 then Err ValueError
  else if sponge_layer a && (if Rlt_dec (sp_factor a) (ff_factor a) then true else false) then Err ValueError
  else
    let sp_factor' := if sponge_layer a then sp_factor a else ff_factor a in
    let sp_maxh' := if sponge_layer a then sp_maxh a else ff_maxh a in
    let tr := tr_factor a * radius a in
    let ff := ff_factor a * radius a in
    let sp := sp_factor' * radius a in
    let cylinder := [circle (radius a)] in
    let* layer := boundary_layer a (fst mat) in
    let transition := named (fst mat) (minus_ (glue (map (fun f => [f]) (tr_faces a))) cylinder) in
    let farfield := named (fst mat) (sized (ff_maxh a) [circle ff]) in
    match rev (diff (tr_radii a)) with
    | [] => Err UnboundLocalError
    | maxh :: _ =>
        let wake := named (fst mat) (sized (wake_maxh a)
          (times (minus_ (minus_ [wake_face (tr + maxh) ff] transition) cylinder) farfield)) in
        let outer := [circle sp] in
        let outer := if sponge_layer a
          then glue [sized sp_maxh' (minus_ (named (snd mat) outer) farfield); farfield]
          else outer in
        let sound := minus_ (minus_ (glue [minus_ outer wake; times wake outer]) transition) cylinder in
        let geo := glue [sound; transition] in
        Ok (if Rlt_dec 0 (bl_thickness a) then glue [geo; layer] else geo)
    end.

(** The mesh copied when the layers are not curved (dream/mesh.py:926-970):
    the region of a triangle, by the number of the face it lies in, from one
    (lines 959-963).  Faces are taken to be numbered in the order they were
    glued.  The boundary elements (lines 942-956, 965-968) depend on the
    numbers netgen gives to edges and are not represented. *)
Definition copied_region (sponge : bool) (mat : string * string) (index : nat) : string :=
  if sponge && (index =? 1)%nat then snd mat else fst mat.
