(** C11, C12: the word format of objects and images. *)
From Verif Require Import Base Image_model Image_spec Image_proofs.
Local Open Scope nat_scope.

(** ** C11 Views and objects are read back as they were written. *)
Theorem C11_view_round_trip : forall v, view_small v -> round_trips view_size write_view read_view v.
Proof. exact view_round_trip. Qed.
Print Assumptions C11_view_round_trip.

Theorem C11_object_round_trip : forall o, object_small o -> round_trips object_size write_object read_object o.
Proof. exact object_round_trip. Qed.
Print Assumptions C11_object_round_trip.

(** What is written is exactly these words, and their number is the announced size. *)
Theorem C11_view_format : forall v,
  (forall m b, write_view m b v = store_list m b (view_words v)) /\ length (view_words v) = view_size v.
Proof. exact view_format_size. Qed.
Print Assumptions C11_view_format.

Theorem C11_object_format : forall o,
  (forall m b, write_object m b o = store_list m b (object_words o)) /\ length (object_words o) = object_size o.
Proof. exact object_format_size. Qed.
Print Assumptions C11_object_format.

Definition some_object : sys_object :=
  mkobj 12 [0xC2000001; 5; 6]%Z [1; 65535]%Z [3]%Z [mkview [7; 8]%Z [0]%Z; mkview [] []].
Example C11_example : object_small some_object /\
  (exists m, write_object (repeat 9%Z 20) 1 some_object = Some m /\ read_object m 1 = Some some_object).
Proof.
  split.
  - repeat constructor; cbn; lia.
  - eexists. split; [vm_compute; reflexivity|]. vm_compute. reflexivity.
Qed.

(** ** C12 Images *)

(** The part that holds: an image whose code segment has fewer than 65536 words
    is loaded back from its word array, its object map moved to the start of
    the code (that is what [serialize] does to it). *)
Theorem C12_image_round_trip_partial : forall fill im,
  image_ok im -> (Z.of_nat (segment_size (im_code im)) < 65536)%Z ->
  exists r, serialize fill im = Some r /\
    load_image r = Some (mkimage (im_time im) (shift_map (im_map im) (Z.of_nat (length (im_map im))))
                                 (im_code im) (im_names im)).
Proof. exact image_round_trip. Qed.
Print Assumptions C12_image_round_trip_partial.

(** Each entry of the loaded object map is the position of its object in the
    word array, when everything fits in 16 bits. *)
Theorem C12_object_map_partial : forall fill t os ns,
  Forall object_small os -> Forall name_ok ns -> small ns ->
  (Z.of_nat (length os + segment_size os) < 65536)%Z ->
  exists r im, serialize fill (build_image t os ns) = Some r /\ load_image r = Some im /\
    im_time im = t /\ im_code im = os /\ im_names im = ns /\
    forall i o, nth_error os i = Some o -> exists p,
      nth_error (im_map im) i = Some p /\ read_object (r_data r) (Z.to_nat p) = Some o.
Proof. exact object_map_designates. Qed.
Print Assumptions C12_object_map_partial.

(** A word array survives being written to a file and read back. *)
Theorem C12_file_round_trip : forall r, is_i64 (r_time r) ->
  (Z.of_nat (r_map_size r) < 4294967296)%Z -> (Z.of_nat (r_code_size r) < 4294967296)%Z ->
  (Z.of_nat (r_names_size r) < 4294967296)%Z ->
  length (r_data r) = r_map_size r + r_code_size r + r_names_size r -> Forall is_u32 (r_data r) ->
  read_file (write_file r) = Some r.
Proof. exact file_round_trip. Qed.
Print Assumptions C12_file_round_trip.

(** Structure members of classes are read back as they were written. *)
Theorem C12_member_round_trip : forall x, member_ok x -> round_trips member_size write_member read_member x.
Proof. exact member_round_trip. Qed.
Print Assumptions C12_member_round_trip.

(** A class is read back by [Class::read] on a class with an empty name. *)
Theorem C12_class_round_trip_partial : forall c, class_ok c -> round_trips class_size write_class (read_class []) c.
Proof. exact class_round_trip. Qed.
Print Assumptions C12_class_round_trip_partial.

(** But [Metadata::read] reads each class into a default-constructed one, whose
    name is "undefined": no class is ever read back. *)
Theorem C12_class_refuted : forall c b m, class_ok c -> b + class_size c <= length m ->
  exists m', write_class m b c = Some m' /\ read_class undefined_name m' b <> Some c.
Proof. exact class_never_read_back. Qed.
Print Assumptions C12_class_refuted.

(** With a code segment of 65536 words or more, the objects loaded may differ
    from the objects written. *)
Theorem C12_large_image_refuted : exists fill im r, image_ok im /\ serialize fill im = Some r /\
  (forall im', load_image r = Some im' -> im_code im' <> im_code im).
Proof. exact image_refuted. Qed.
Print Assumptions C12_large_image_refuted.

(** With 65536 objects or more, loading never returns ([None]). *)
Theorem C12_many_objects_refuted : forall r, (65535 < Z.of_nat (r_map_size r))%Z -> load_image r = None.
Proof. exact many_objects. Qed.
Print Assumptions C12_many_objects_refuted.

Definition some_image : image :=
  build_image 5 [some_object; mkobj 13 [4]%Z [] [] []] [(12, [97; 98; 99; 100]); (13, [101])]%Z.
Example C12_example : image_ok some_image /\
  (exists r im, serialize 0xCDCDCDCD some_image = Some r /\ read_file (write_file r) = Some r /\
     load_image r = Some im /\ im_map im = [2; 20]%Z /\ im_code im = im_code some_image /\
     im_names im = im_names some_image).
Proof.
  split.
  - repeat constructor; cbn; lia.
  - eexists. eexists. split; [vm_compute; reflexivity|]. split; [vm_compute; reflexivity|].
    split; [vm_compute; reflexivity|]. vm_compute. auto.
Qed.
Definition some_class : class :=
  mkclass 0xC3000005 [102; 97; 99; 116]%Z 3 1 [mkmember 2 3 [97]%Z 0 [98; 99]%Z; mkmember 11 0 []%Z 1 []].
Example C12_class_example : class_ok some_class.
Proof. repeat constructor; cbn; lia. Qed.
