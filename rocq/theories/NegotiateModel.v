(** What the vhost-user backend offers its driver (backend.rs), and what it makes of the
    answer. *)
From Coq Require Import List NArith Bool.
From Verif Require Import Base VhostModel.
Import ListNotations.
Local Open Scope N_scope.

(** The numbers of the feature bits (virtio_bindings, virtio_blk.h and virtio_config.h;
    values of the virtio standard). *)
Definition VIRTIO_BLK_F_SIZE_MAX : N := 1.
Definition VIRTIO_BLK_F_SEG_MAX : N := 2.
Definition VIRTIO_BLK_F_BLK_SIZE : N := 6.
Definition VIRTIO_BLK_F_FLUSH : N := 9.
Definition VIRTIO_BLK_F_TOPOLOGY : N := 10.
Definition VIRTIO_BLK_F_CONFIG_WCE : N := 11.
Definition VIRTIO_BLK_F_MQ : N := 12.
Definition VIRTIO_RING_F_INDIRECT_DESC : N := 28.
Definition VIRTIO_RING_F_EVENT_IDX : N := 29.
Definition VIRTIO_F_VERSION_1 : N := 32.
(** VhostUserVirtioFeatures::PROTOCOL_FEATURES, VhostUserProtocolFeatures (vhost crate). *)
Definition PROTOCOL_FEATURES : N := 2 ^ 30.
Definition PROTOCOL_MQ : N := 2 ^ 0.
Definition PROTOCOL_CONFIG : N := 2 ^ 9.
Definition PROTOCOL_CONFIGURE_MEM_SLOTS : N := 2 ^ 15.

(** backend.rs:130-142 features: the same whatever is configured. *)
Definition features : N :=
  N.lor (N.shiftl 1 VIRTIO_BLK_F_SEG_MAX)
 (N.lor (N.shiftl 1 VIRTIO_BLK_F_BLK_SIZE)
 (N.lor (N.shiftl 1 VIRTIO_BLK_F_SIZE_MAX)
 (N.lor (N.shiftl 1 VIRTIO_BLK_F_FLUSH)
 (N.lor (N.shiftl 1 VIRTIO_BLK_F_TOPOLOGY)
 (N.lor (N.shiftl 1 VIRTIO_BLK_F_MQ)
 (N.lor (N.shiftl 1 VIRTIO_BLK_F_CONFIG_WCE)
 (N.lor (N.shiftl 1 VIRTIO_RING_F_EVENT_IDX)
 (N.lor (N.shiftl 1 VIRTIO_F_VERSION_1)
 (N.lor (N.shiftl 1 VIRTIO_RING_F_INDIRECT_DESC) PROTOCOL_FEATURES))))))))).

(** backend.rs:153-157 protocol_features. *)
Definition protocol_features : N :=
  N.lor PROTOCOL_CONFIG (N.lor PROTOCOL_MQ PROTOCOL_CONFIGURE_MEM_SLOTS).

(** What the driver is told of a device of [nsectors] sectors: backend.rs:50-63 (the
    configuration space is made from the configuration when the backend starts, and never
    changed), 251-282 get_config.  acked_features (144-151) only writes to the log: the
    device is the same whatever the driver accepts.  set_config is not implemented: what a
    driver writes to the configuration space has no effect. *)
Definition told (nsectors seg_size_max seg_count_max num_queues : N) (write_through : bool)
  (offset size : N) : list byte :=
  get_config (build_vconfig nsectors seg_size_max seg_count_max num_queues write_through) offset size.
