(** The bits of the event masks, from the Bluetooth Core specification: Vol 4, Part E,
    7.3.1 (Set Event Mask), 7.3.69 (Set Event Mask Page 2) and 7.8.1 (LE Set Event Mask). *)
From Verif Require Import Prelude.
Open Scope N_scope.

(** Event code, and its bit in the first page *)
Definition page1_bits : list (N * N) :=
  [(0x01, 0) (* Inquiry Complete *); (0x02, 1) (* Inquiry Result *);
   (0x03, 2) (* Connection Complete *); (0x04, 3) (* Connection Request *);
   (0x05, 4) (* Disconnection Complete *); (0x06, 5) (* Authentication Complete *);
   (0x07, 6) (* Remote Name Request Complete *); (0x08, 7) (* Encryption Change [v1] *);
   (0x09, 8) (* Change Connection Link Key Complete *); (0x0A, 9) (* Link Key Type Changed *);
   (0x0B, 10) (* Read Remote Supported Features Complete *);
   (0x0C, 11) (* Read Remote Version Information Complete *); (0x0D, 12) (* QoS Setup Complete *);
   (0x10, 15) (* Hardware Error *); (0x11, 16) (* Flush Occurred *); (0x12, 17) (* Role Change *);
   (0x14, 19) (* Mode Change *); (0x15, 20) (* Return Link Keys *); (0x16, 21) (* PIN Code Request *);
   (0x17, 22) (* Link Key Request *); (0x18, 23) (* Link Key Notification *);
   (0x19, 24) (* Loopback Command *); (0x1A, 25) (* Data Buffer Overflow *);
   (0x1B, 26) (* Max Slots Change *); (0x1C, 27) (* Read Clock Offset Complete *);
   (0x1D, 28) (* Connection Packet Type Changed *); (0x1E, 29) (* QoS Violation *);
   (0x20, 31) (* Page Scan Repetition Mode Change *); (0x21, 32) (* Flow Specification Complete *);
   (0x22, 33) (* Inquiry Result with RSSI *); (0x23, 34) (* Read Remote Extended Features Complete *);
   (0x2C, 43) (* Synchronous Connection Complete *); (0x2D, 44) (* Synchronous Connection Changed *);
   (0x2E, 45) (* Sniff Subrating *); (0x2F, 46) (* Extended Inquiry Result *);
   (0x30, 47) (* Encryption Key Refresh Complete *); (0x31, 48) (* IO Capability Request *);
   (0x32, 49) (* IO Capability Response *); (0x33, 50) (* User Confirmation Request *);
   (0x34, 51) (* User Passkey Request *); (0x35, 52) (* Remote OOB Data Request *);
   (0x36, 53) (* Simple Pairing Complete *); (0x38, 55) (* Link Supervision Timeout Changed *);
   (0x39, 56) (* Enhanced Flush Complete *); (0x3B, 58) (* User Passkey Notification *);
   (0x3C, 59) (* Keypress Notification *); (0x3D, 60) (* Remote Host Supported Features Notification *);
   (0x3E, 61) (* LE Meta event *)].

(** Event code, and its bit in the second page *)
Definition page2_bits : list (N * N) :=
  [(0x48, 8) (* Number Of Completed Data Blocks *);
   (0x57, 23) (* Authenticated Payload Timeout Expired *);
   (0x59, 25) (* Encryption Change [v2] *)].

(** Subevent code, and its bit in the LE event mask *)
Definition le_bits : list (N * N) :=
  [(0x01, 0) (* Connection Complete *); (0x02, 1) (* Advertising Report *);
   (0x03, 2) (* Connection Update Complete *); (0x04, 3) (* Read Remote Features Page 0 Complete *);
   (0x05, 4) (* Long Term Key Request *); (0x06, 5) (* Remote Connection Parameter Request *);
   (0x07, 6) (* Data Length Change *); (0x08, 7) (* Read Local P-256 Public Key Complete *);
   (0x09, 8) (* Generate DHKey Complete *); (0x0A, 9) (* Enhanced Connection Complete [v1] *);
   (0x0B, 10) (* Directed Advertising Report *); (0x0C, 11) (* PHY Update Complete *);
   (0x0D, 12) (* Extended Advertising Report *); (0x0E, 13) (* Periodic Advertising Sync Established [v1] *);
   (0x0F, 14) (* Periodic Advertising Report [v1] *); (0x10, 15) (* Periodic Advertising Sync Lost *);
   (0x11, 16) (* Scan Timeout *); (0x12, 17) (* Advertising Set Terminated *);
   (0x13, 18) (* Scan Request Received *); (0x14, 19) (* Channel Selection Algorithm *);
   (0x15, 20) (* Connectionless IQ Report *); (0x16, 21) (* Connection IQ Report *);
   (0x17, 22) (* CTE Request Failed *); (0x18, 23) (* Periodic Advertising Sync Transfer Received [v1] *);
   (0x19, 24) (* CIS Established [v1] *); (0x1A, 25) (* CIS Request *); (0x1B, 26) (* Create BIG Complete *);
   (0x1C, 27) (* Terminate BIG Complete *); (0x1D, 28) (* BIG Sync Established *);
   (0x1E, 29) (* BIG Sync Lost *); (0x1F, 30) (* Request Peer SCA Complete *);
   (0x20, 31) (* Path Loss Threshold *); (0x21, 32) (* Transmit Power Reporting *);
   (0x22, 33) (* BIGInfo Advertising Report *); (0x23, 34) (* Subrate Change *);
   (0x24, 35) (* Periodic Advertising Sync Established [v2] *); (0x25, 36) (* Periodic Advertising Report [v2] *);
   (0x26, 37) (* Periodic Advertising Sync Transfer Received [v2] *);
   (0x27, 38) (* Periodic Advertising Subevent Data Request *);
   (0x28, 39) (* Periodic Advertising Response Report *); (0x29, 40) (* Enhanced Connection Complete [v2] *);
   (0x2A, 41) (* CIS Established [v2] *); (0x2B, 42) (* Read All Remote Features Complete *);
   (0x2C, 43) (* CS Read Remote Supported Capabilities Complete *);
   (0x2D, 44) (* CS Read Remote FAE Table Complete *); (0x2E, 45) (* CS Security Enable Complete *);
   (0x2F, 46) (* CS Config Complete *); (0x30, 47) (* CS Procedure Enable Complete *);
   (0x31, 48) (* CS Subevent Result *); (0x32, 49) (* CS Subevent Result Continue *)].
