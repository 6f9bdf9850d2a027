(** Model of /repo/pyclustering/nnet/syncsegm.py: image segmentation by two
    layers of oscillatory networks (python path of allocate_clusters,
    cluster/syncnet.py:41-57, that is sync_dynamic.allocate_sync_ensembles).
    The simulations of the networks are parameters: functions from the points
    of the network (pixels, coordinates) to the recorded dynamic. *)
From Verif Require Import Base Ensembles_Model.

Section Segm.
(** [2 * pi], see Ensembles_Model. *)
Variable period : Q.
(** syncnet(image_data, color_radius).process(order_color), syncsegm.py:227-228. *)
Variable color_process : list point -> list (list Q).
(** syncnet(coordinates, object_radius).process(order_object), syncsegm.py:278-279. *)
Variable object_process : list (nat * nat) -> list (list Q).

(** syncsegm_analyser, syncsegm.py:65-75: the recorded first layer, and for
    every analysed colour segment its indexes and its recorded network. *)
Record analyser : Type := mkAnalyser
  { an_color : list (list Q);
    an_objects : option (list (list nat * list (list Q))) }.

(** syncsegm_analyser.allocate_colors, syncsegm.py:96-109. *)
Definition allocate_colors (a : analyser) (eps : Q) (noise_size : nat) : res (list (list nat)) :=
  do segments <- sync_ensembles period (an_color a) eps None None;
  Ok (filter (fun c => noise_size <? length c) segments).

(** The loop of allocate_objects, syncsegm.py:126-131. *)
Fixpoint object_segments (eps : Q) (objs : list (list nat * list (list Q))) : res (list (list nat)) :=
  match objs with
  | [] => Ok []
  | (indexes, dynamic) :: rest =>
      do cl <- sync_ensembles period dynamic eps (Some indexes) None;
      do tl <- object_segments eps rest;
      Ok (cl ++ tl)
  end.

(** syncsegm_analyser.allocate_objects, syncsegm.py:112-134. *)
Definition allocate_objects (a : analyser) (eps : Q) (noise_size : nat) : res (list (list nat)) :=
  match an_objects a with
  | None => Ok []
  | Some objs =>
      do segments <- object_segments eps objs;
      Ok (filter (fun c => noise_size <? length c) segments)
  end.

(** syncsegm.__extract_location_coordinates, syncsegm.py:284-301: (x, y) of
    every pixel; [floor(index / width)] is exact here (a float division in
    the code). *)
Definition extract_location_coordinates (width : nat) (segment : list nat) : list (nat * nat) :=
  map (fun index => let y := index / width in (index - y * width, y)) segment.

(** syncsegm.__analyse_color_segment, syncsegm.py:262-281. *)
Definition analyse_color_segment (width noise_size : nat) (segment : list nat) : option (list (list Q)) :=
  let coordinates := extract_location_coordinates width segment in
  if length coordinates <? noise_size then None
  else Some (object_process coordinates).

(** The loop of syncsegm.__analyse_objects, syncsegm.py:253-256. *)
Fixpoint analyse_segments (width noise_size : nat) (segments : list (list nat))
  : list (list nat * list (list Q)) :=
  match segments with
  | [] => []
  | s :: rest =>
      match analyse_color_segment width noise_size s with
      | Some d => (s, d) :: analyse_segments width noise_size rest
      | None => analyse_segments width noise_size rest
      end
  end.

(** syncsegm.process, syncsegm.py:190-213, with __analyse_colors (L216-230)
    and __analyse_objects (L233-259); [with_objects] is [object_radius is not
    None]; the image is given by its width and its pixels. *)
Definition segm_process (width noise_size : nat) (with_objects : bool) (data : list point) : res analyser :=
  let color := color_process data in
  if with_objects then
    do segments <- sync_ensembles period color (1 # 100) None None;
    Ok (mkAnalyser color (Some (analyse_segments width noise_size segments)))
  else Ok (mkAnalyser color None).
End Segm.
