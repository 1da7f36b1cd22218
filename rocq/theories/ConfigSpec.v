(** What the configuration file promises, in terms of the option names of
    proto/rootcanal/configuration.proto, of the bit numbers of the LE features (Core Vol 6
    Part B 4.6) and of the operation codes of the commands (Core Vol 4 Part E 7.8). *)
From Verif Require Import Prelude Hci HciSpec Config.
Open Scope N_scope.

(** The options of the features message, in the order of the file. *)
Inductive option_name :=
| ExtendedAdvertising | PeriodicAdvertising | Privacy | Phy2M | PhyCoded | IsochronousStreams
| Subrating | ChannelSounding | PowerControl.

Definition options : list option_name :=
  [ExtendedAdvertising; PeriodicAdvertising; Privacy; Phy2M; PhyCoded; IsochronousStreams;
   Subrating; ChannelSounding; PowerControl].

(** What the user wrote for an option, if anything. *)
Definition choice (c : controller) (o : option_name) : option bool :=
  match given_features c with
  | None => None
  | Some f =>
      match o with
      | ExtendedAdvertising => le_extended_advertising f
      | PeriodicAdvertising => le_periodic_advertising f
      | Privacy => ll_privacy f
      | Phy2M => le_2m_phy f
      | PhyCoded => le_coded_phy f
      | IsochronousStreams => le_connected_isochronous_stream f
      | Subrating => le_connection_subrating f
      | ChannelSounding => le_channel_sounding f
      | PowerControl => le_power_control_request f
      end
  end.

(** The bit numbers of the features an option stands for. *)
Definition bits_of (o : option_name) : list N :=
  match o with
  | ExtendedAdvertising => [12]
  | PeriodicAdvertising => [13]
  | Privacy => [6]
  | Phy2M => [8]
  | PhyCoded => [11]
  | IsochronousStreams => [28; 29]
  | Subrating => [37]
  | ChannelSounding => [46]
  | PowerControl => [33]
  end.

(** The operation codes of the commands that come with an option. *)
Definition commands_of (o : option_name) : list N :=
  match o with
  | ExtendedAdvertising =>
      [0x2033; 0x2035; 0x2036; 0x2037; 0x2038; 0x2039; 0x203a; 0x203b; 0x203c; 0x203d; 0x2041; 0x2042; 0x2043; 0x207c]
  | PeriodicAdvertising =>
      [0x2033; 0x203e; 0x203f; 0x2040; 0x2044; 0x2045; 0x2046; 0x2047; 0x2048; 0x2049; 0x204a; 0x207c]
  | Privacy => [0x2027; 0x2028; 0x2029; 0x202a; 0x202b; 0x202c; 0x202d; 0x202e; 0x2033; 0x204e]
  | Phy2M => []
  | PhyCoded => []
  | IsochronousStreams => [0x2062; 0x2063; 0x2064; 0x2065; 0x2066; 0x2067; 0x206d; 0x206e; 0x206f]
  | Subrating => [0x207d; 0x207e]
  | ChannelSounding =>
      [0x2089; 0x208a; 0x208b; 0x208c; 0x208d; 0x208e; 0x208f; 0x2090; 0x2091; 0x2092; 0x2093; 0x2094; 0x2095; 0x2096]
  | PowerControl => [0x2076; 0x2077; 0x207a]
  end.

(** LE Receiver Test [v2] and LE Set Data Related Address Changes: the two commands that
    come with more than one option. *)
Definition shared : list N := [0x2033; 0x207c].

(** The position of an option in the file. *)
Definition rank (o : option_name) : N :=
  match o with
  | ExtendedAdvertising => 1 | PeriodicAdvertising => 2 | Privacy => 3 | Phy2M => 4 | PhyCoded => 5
  | IsochronousStreams => 6 | Subrating => 7 | ChannelSounding => 8 | PowerControl => 9
  end.

(** The same configuration with nothing but its preset. *)
Definition preset_alone (c : controller) : controller :=
  {| given_preset := given_preset c; given_features := None; given_quirks := None;
     given_strict := None; given_vendor := None |}.

Definition empty_configuration : controller :=
  {| given_preset := None; given_features := None; given_quirks := None;
     given_strict := None; given_vendor := None |}.

(** Commands that an option turns on although nothing implements them. *)
Definition promised_in_vain : list N := [0x2033; 0x207c; 0x2095; 0x2096].

(** The random address at the end of a history of a controller made with [c]. *)
Definition random_address (c : controller) (h : list address_step) : list N :=
  fold_left address_after h (created_address (configure c)).

Definition quirk_of (c : controller) (f : quirks -> option bool) : option bool :=
  match given_quirks c with None => None | Some q => f q end.
Definition vendor_of (c : controller) (f : vendor -> option bool) : option bool :=
  match given_vendor c with None => None | Some v => f v end.

(** The commands of the Core Specification that RootCanal knows by name only. *)
Definition unimplemented : list N := [
  0x0403 (* periodic inquiry mode *);
  0x0404 (* exit periodic inquiry mode *);
  0x041a (* remote name request cancel *);
  0x0420 (* read lmp handle *);
  0x043f (* truncated page *);
  0x0440 (* truncated page cancel *);
  0x0441 (* set connectionless peripheral broadcast *);
  0x0442 (* set connectionless peripheral broadcast receive *);
  0x0443 (* start synchronization train *);
  0x0444 (* receive synchronization train *);
  0x0c08 (* flush *);
  0x0c09 (* read pin type *);
  0x0c0a (* write pin type *);
  0x0c0d (* read stored link key *);
  0x0c11 (* write stored link key *);
  0x0c27 (* read automatic flush timeout *);
  0x0c28 (* write automatic flush timeout *);
  0x0c29 (* read num broadcast retransmits *);
  0x0c2a (* write num broadcast retransmits *);
  0x0c2b (* read hold mode activity *);
  0x0c2c (* write hold mode activity *);
  0x0c31 (* set controller to host flow control *);
  0x0c35 (* host number of completed packets *);
  0x0c36 (* read link supervision timeout *);
  0x0c3f (* set afh host channel classification *);
  0x0c48 (* read afh channel assessment mode *);
  0x0c49 (* write afh channel assessment mode *);
  0x0c51 (* read extended inquiry response *);
  0x0c55 (* read simple pairing mode *);
  0x0c59 (* write inquiry transmit power level *);
  0x0c5a (* read default erroneous data reporting *);
  0x0c5b (* write default erroneous data reporting *);
  0x0c66 (* read flow control mode *);
  0x0c67 (* write flow control mode *);
  0x0c6c (* read le host support *);
  0x0c6e (* set mws channel parameters *);
  0x0c6f (* set external frame configuration *);
  0x0c70 (* set mws signaling *);
  0x0c71 (* set mws transport layer *);
  0x0c72 (* set mws scan frequency table *);
  0x0c73 (* set mws pattern configuration *);
  0x0c74 (* set reserved lt addr *);
  0x0c75 (* delete reserved lt addr *);
  0x0c76 (* set connectionless peripheral broadcast data *);
  0x0c77 (* read synchronization train parameters *);
  0x0c78 (* write synchronization train parameters *);
  0x0c79 (* read secure connections host support *);
  0x0c7b (* read authenticated payload timeout *);
  0x0c7c (* write authenticated payload timeout *);
  0x0c7e (* read extended page timeout *);
  0x0c7f (* write extended page timeout *);
  0x0c80 (* read extended inquiry length *);
  0x0c81 (* write extended inquiry length *);
  0x0c82 (* set ecosystem base interval *);
  0x0c83 (* configure data path *);
  0x100a (* read data block size *);
  0x100c (* read local simple pairing options *);
  0x100d (* read local supported codecs v2 *);
  0x100e (* read local supported codec capabilities *);
  0x100f (* read local supported controller delay *);
  0x1403 (* read link quality *);
  0x1406 (* read afh channel map *);
  0x1407 (* read clock *);
  0x140c (* get mws transport layer configuration *);
  0x140d (* set triggered clock capture *);
  0x1803 (* enable implementation under test mode *);
  0x1804 (* write simple pairing debug mode *);
  0x180a (* write secure connections test mode *);
  0x2014 (* le set host channel classification *);
  0x2015 (* le read channel map *);
  0x201d (* le receiver test v1 *);
  0x201e (* le transmitter test v1 *);
  0x201f (* le test end *);
  0x2026 (* le generate dhkey v1 *);
  0x2033 (* le receiver test v2 *);
  0x2034 (* le transmitter test v2 *);
  0x204c (* le read rf path compensation power *);
  0x204d (* le write rf path compensation power *);
  0x204f (* le receiver test v3 *);
  0x2050 (* le transmitter test v3 *);
  0x2051 (* le set connectionless cte transmit parameters *);
  0x2052 (* le set connectionless cte transmit enable *);
  0x2053 (* le set connectionless iq sampling enable *);
  0x2054 (* le set connection cte receive parameters *);
  0x2055 (* le set connection cte transmit parameters *);
  0x2056 (* le connection cte request enable *);
  0x2057 (* le connection cte response enable *);
  0x2058 (* le read antenna information *);
  0x2059 (* le set periodic advertising receive enable *);
  0x205a (* le periodic advertising sync transfer *);
  0x205b (* le periodic advertising set info transfer *);
  0x205c (* le set periodic advertising sync transfer parameters *);
  0x205d (* le set default periodic advertising sync transfer parameters *);
  0x205e (* le generate dhkey v2 *);
  0x205f (* le modify sleep clock accuracy *);
  0x2061 (* le read iso tx sync *);
  0x2069 (* le create big test *);
  0x206b (* le big create sync *);
  0x206c (* le big terminate sync *);
  0x2070 (* le iso transmit test *);
  0x2071 (* le iso receive test *);
  0x2072 (* le iso read test counters *);
  0x2073 (* le iso test end *);
  0x2075 (* le read iso link quality *);
  0x2078 (* le set path loss reporting parameters *);
  0x2079 (* le set path loss reporting enable *);
  0x207b (* le transmitter test v4 *);
  0x207c (* le set data related address changes *);
  0x207f (* le set extended advertising parameters v2 *);
  0x2080 (* le set decision data *);
  0x2081 (* le set decision instructions *);
  0x2082 (* le set periodic advertising subevent data *);
  0x2083 (* le set periodic advertising response data *);
  0x2084 (* le set periodic sync subevent *);
  0x2085 (* le extended create connection v2 *);
  0x2086 (* le set periodic advertising parameters v2 *);
  0x2087 (* le read all local supported features *);
  0x2088 (* le read all remote features *);
  0x2095 (* le cs test *);
  0x2096 (* le cs test end *);
  0x2098 (* le add device to monitored advertisers list *);
  0x2099 (* le remove device from monitored advertisers list *);
  0x209a (* le clear monitored advertisers list *);
  0x209b (* le read monitored advertisers list size *);
  0x209c (* le enable monitoring advertisers *);
  0x209d (* le frame space update *)
].

(** What a preset advertises although nothing implements it: the commands of the real
    controller it imitates. The default preset: advertised_in_vain of HciSpec.v. *)
Definition preset_in_vain (p : preset) : list N :=
  match p with
  | DEFAULT => advertised_in_vain
  | LAIRD_BL654 => [
      0x0c7b; 0x0c7c; 0x2014; 0x2015; 0x201d; 0x201e; 0x201f; 0x2026; 0x2033; 0x2034; 0x204c; 0x204d;
      0x204f; 0x2050; 0x2059; 0x205a; 0x205b; 0x205c; 0x205d; 0x205e; 0x205f; 0x2061; 0x2069; 0x206b;
      0x206c; 0x2070; 0x2071; 0x2072; 0x2073; 0x2075; 0x2078; 0x2079; 0x207b; 0x207c; 0x2082; 0x2083;
      0x2084; 0x2085; 0x2086]
  | CSR_RCK_PTS_DONGLE => [
      0x0403; 0x0404; 0x041a; 0x0420; 0x043f; 0x0440; 0x0441; 0x0442; 0x0443; 0x0444; 0x0c08; 0x0c09;
      0x0c0a; 0x0c0d; 0x0c11; 0x0c27; 0x0c28; 0x0c29; 0x0c2a; 0x0c2b; 0x0c2c; 0x0c31; 0x0c35; 0x0c36;
      0x0c3f; 0x0c48; 0x0c49; 0x0c51; 0x0c55; 0x0c59; 0x0c6c; 0x0c74; 0x0c75; 0x0c76; 0x0c77; 0x0c78;
      0x0c79; 0x0c7b; 0x0c7c; 0x1403; 0x1406; 0x1407; 0x1803; 0x1804; 0x180a; 0x2014; 0x2015; 0x201d;
      0x201e; 0x201f]
  | INTEL_BE200 => [
      0x0403; 0x0404; 0x041a; 0x0420; 0x0c08; 0x0c09; 0x0c0a; 0x0c27; 0x0c28; 0x0c29; 0x0c2a; 0x0c31;
      0x0c35; 0x0c36; 0x0c3f; 0x0c48; 0x0c49; 0x0c51; 0x0c55; 0x0c59; 0x0c5a; 0x0c5b; 0x0c6c; 0x0c79;
      0x0c7b; 0x0c7c; 0x0c82; 0x0c83; 0x100c; 0x100d; 0x100e; 0x100f; 0x1403; 0x1406; 0x1407; 0x1803;
      0x1804; 0x180a; 0x2014; 0x2015; 0x201d; 0x201e; 0x201f; 0x2026; 0x2033; 0x2034; 0x204c; 0x204d;
      0x2061; 0x2070; 0x2071; 0x2072; 0x2073; 0x2075; 0x2078; 0x2079; 0x207b; 0x207c]
  end.

(** The LE features of a preset of the file, by bit number. *)
Definition preset_bits (p : option preset) : list N :=
  match p with
  | None | Some DEFAULT => [0; 1; 2; 3; 4; 5; 6; 7; 8; 11; 12; 13; 28; 29; 33; 37; 46]
  | Some LAIRD_BL654 =>
      [0; 1; 2; 3; 4; 5; 6; 7; 8; 9; 10; 11; 12; 13; 14; 16; 24; 25; 26; 27; 28; 29; 30; 31; 33; 34; 35; 36; 37; 39; 40; 43; 44]
  | Some CSR_RCK_PTS_DONGLE => [0; 1; 2; 3; 4]
  | Some INTEL_BE200 => [0; 1; 2; 3; 4; 5; 6; 7; 8; 11; 12; 14; 27]
  end.
