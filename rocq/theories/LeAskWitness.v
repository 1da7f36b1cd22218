(** Concrete histories of an LE connection whose hosts ask about the other end. *)
From Verif Require Import Prelude LeLink LeLinkSpec LeLinkProofs LeLinkMore LeLinkPhy LeLinkWitness LeAskSpec.
Open Scope N_scope.

(** A host that supports connected isochronous streams, and a controller whose subversion, as
    in three of the presets of controller_properties.cc, has more than eight bits *)
Definition streaming : settings := Settings 7 7 7 0 0 wide (About 0x1f (2 ^ 32) 12 7 15).
Definition long : settings := Settings 7 7 7 0 0 wide (About 0x1f 0 12 0x5ad2 15).

Lemma hears x h : forallb (fun e => negb (on_side x (what e)) || mask_of (what e) M_LE_META && mask_of (what e) M_REMOTE_VERSION) h = true -> listens x h.
Proof. intros H e I X. rewrite forallb_forall in H. specialize (H e I). rewrite X in H. cbn in H. now apply andb_true_iff. Qed.

Lemma asked_both : exists h s, history (connected set streaming 24 0 500) h s /\ listens Central h /\ listens Peripheral h /\ quiet s /\ up (cen s) = true /\ up (per s) = true /\
  told Central h = [VersionComplete SUCCESS 12 15 7; FeaturesComplete SUCCESS 0x10000001f; FeaturesComplete SUCCESS 0x10000001f] /\
  told Peripheral h = [FeaturesComplete SUCCESS 0x1f] /\ due Peripheral (s_about set) h = told Peripheral h.
Proof.
  played (connected set streaming 24 0 500) [c_ ReadRemoteVersion; p_ ReadRemoteFeatures; c_ ReadRemoteFeatures; p_ (SetHostFeature false 32 0); dp; dc; c_ ReadRemoteFeatures; dp; dp; dp; dc; dc; dc].
  split; [now apply hears|]. split; [now apply hears|]. repeat split; reflexivity.
Qed.
Lemma masked_or_closed : exists h s, history (connected set streaming 24 0 500) h s /\ quiet s /\ told Central h = [] /\
  due Central (s_about streaming) h = [FeaturesComplete SUCCESS 0x10000001f; VersionComplete SUCCESS 12 15 7] /\ up (per s) = false /\ known_features (cen s) = Some 0x10000001f.
Proof.
  played (connected set streaming 24 0 500) [c_ ReadRemoteFeatures; dp; Deliver Central (fun _ => false); c_ ReadRemoteVersion; p_ (Disconnect 0x13); dp; dc].
  repeat split; reflexivity.
Qed.
Lemma long_subversion : exists h s, history (connected set long 24 0 500) h s /\ listens Central h /\ quiet s /\ up (cen s) = true /\ up (per s) = true /\
  due Central (s_about long) h = [VersionComplete SUCCESS 12 15 0x5ad2] /\ told Central h = [VersionComplete SUCCESS 12 15 0xd2].
Proof.
  played (connected set long 24 0 500) [c_ ReadRemoteVersion; dp; dc]. split; [now apply hears|]. repeat split; reflexivity.
Qed.
Lemma phys_read : exists h s, history start h s /\ quiet s /\ (forall e, In e h -> mask_of (what e) M_PHY_UPDATE = true) /\
  step s (Host Central all ReadPhy) = Some (s, SUCCESS, [PhysAre LE_2M LE_CODED]) /\ step s (Host Peripheral all ReadPhy) = Some (s, SUCCESS, [PhysAre LE_CODED LE_2M]).
Proof.
  played start [c_ (SetPhy false false 2 4); dp; dc; dp]. split; [split; reflexivity|].
  split; [intros e I; cbn in I; repeat (destruct I as [<-|I]; [reflexivity|]); contradiction|]. split; reflexivity.
Qed.
Lemma feature_set : exists h s, history (connected set streaming 24 0 500) h s /\ up (per s) = false /\
  (exists e, In e h /\ what e = Host Peripheral all (SetHostFeature false 32 0) /\ status_of e = COMMAND_DISALLOWED) /\
  (exists e, In e h /\ what e = Host Peripheral all (SetHostFeature false 32 0) /\ status_of e = SUCCESS) /\ all_features (info (per s)) = 0x1f.
Proof.
  played (connected set streaming 24 0 500) [p_ (SetHostFeature false 32 0); p_ (Disconnect 0x13); p_ (SetHostFeature false 32 0)].
  split; [reflexivity|]. split; [eexists; split; [right; right; left; reflexivity|split; reflexivity]|]. split; [eexists; split; [left; reflexivity|split; reflexivity]|reflexivity].
Qed.
