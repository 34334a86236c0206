(** * Conformance2: the project's own tests, run by the model.
    Each example takes template, data and expected result from a test in /repo/test/pytest (generated by
    tools/conform.py) and checks that the model of the complete program (Run.v) computes this result.  These are tests of the
    model, not proofs about it. *)
From Verif Require Import PyBase Regex Results Template Attributes FormRegex MatchVar MatchFuncs GroupFuncs Parser Compile FuncTable Session Files Inputs Load Run.
Local Open Scope string_scope.
Local Open Scope list_scope.
Definition is_ (r : res val) (v : val) : bool := match r with Ok x => py_eq x v | Raise _ => false end.
(** [result[i][j]...] *)
Fixpoint at_ (p : list nat) (r : res val) : res val :=
  match p with [] => r | i :: t => at_ t (do v <- r; match v with VList l => match nth_error l i with Some x => Ok x | None => Raise IndexError end | _ => Raise TypeError end) end.

(** test/pytest/test_anonymous_group.py test_anonymous_group_with_child_group_empty_absolute_path *)
Example anonymous_group_anonymous_group_with_child_group_empty_absolute_path : is_ (at_ [] (ttp_result (fun _ => None) false sort_set ({| w_file := fun p => assoc p []; w_dir := fun p => assoc p []; w_tdir := None; w_exec := fun _ => out_of_model |}) $"" [] $"
<template results=""per_template"">
<input name=""Cisco_ios"" load=""text"">
r2#show interfaces | inc line protocol
interface GigabitEthernet1
 vrf forwarding MGMT
 ip address 10.123.89.55 255.255.255.0
</input>

<input name=""Cisco_ios"" load=""text"">
r1#show interfaces | inc line protocol:
interface GigabitEthernet1
 description some info
 vrf forwarding MGMT
 ip address 10.123.89.56 255.255.255.0
interface GigabitEthernet2
 ip address 10.123.89.55 255.255.255.0
</input>

<group void="""">
interface {{ interface }}
 description {{ description | ORPHRASE }}
 <group name=""/"">
 ip address {{ ip }} {{ mask }}
 </group>
</group>
</template>
    " [] $"list")) (VList [VList [VDict [(KS $"ip", VStr $"10.123.89.55"); (KS $"mask", VStr $"255.255.255.0")]; VDict [(KS $"ip", VStr $"10.123.89.56"); (KS $"mask", VStr $"255.255.255.0")]; VDict [(KS $"ip", VStr $"10.123.89.55"); (KS $"mask", VStr $"255.255.255.0")]]]) = true.
Proof. vm_compute. reflexivity. Qed.

(** test/pytest/test_answers_and_docs.py test_answer_2 *)
Example answers_and_docs_answer_2 : is_ (at_ [] (ttp_result (fun _ => None) false sort_set ({| w_file := fun p => assoc p []; w_dir := fun p => assoc p []; w_tdir := None; w_exec := fun _ => out_of_model |}) $"" [] $"name={{ name }}, age={{ age }}" [(VStr $"
name=username1, age=1001
name=username2, age=1002
name=username3, age=1003
", $"_all_")] $"flat_list")) (VList [VDict [(KS $"age", VStr $"1001"); (KS $"name", VStr $"username1")]; VDict [(KS $"age", VStr $"1002"); (KS $"name", VStr $"username2")]; VDict [(KS $"age", VStr $"1003"); (KS $"name", VStr $"username3")]]) = true.
Proof. vm_compute. reflexivity. Qed.

(** test/pytest/test_answers_and_docs.py test_answer_3 *)
Example answers_and_docs_answer_3 : is_ (at_ [] (ttp_result (fun _ => None) false sort_set ({| w_file := fun p => assoc p []; w_dir := fun p => assoc p []; w_tdir := None; w_exec := fun _ => out_of_model |}) $"" [] $"
<template name=""VIP_cfg"" results=""per_template"">
<group name=""{{ vip }}"">
/c/slb/virt {{ virt_seq | DIGIT }}
    dis {{ config_state | set(""dis"") }}
    ipver {{ ipver}}
    vip {{ vip }}
    rtsrcmac {{ rtsrcmac }}
    vname ""{{ vip_name | ORPHRASE }}""
    
<group name=""services.{{ port }}.{{ proto }}"">
/c/slb/virt 12/service {{ port | DIGIT }} {{ proto | exclude(ssl) }}
    group {{group_seq }}
    rport {{ real_port }}
    pbind {{ pbind }}
    dbind {{ dbind }}
    xforward {{ xforward }}
    httpmod {{ httpmod }}
</group>    

<group name=""ssl_profile"">
/c/slb/virt {{ virt_seq }}/service 443 https/ssl
    srvrcert cert {{ ssl_server_cert }}
    sslpol {{ ssl_profile }}    
    {{ ssl | set(""https/ssl"") }}
</group>   

</group>  
</template> 
    " [(VStr $"
/c/slb/virt 12
    dis
    ipver v4
    vip 1.1.1.1
    rtsrcmac ena
    vname ""my name""
/c/slb/virt 12/service 443 https
    group 15
    rport 443
    pbind clientip
    dbind forceproxy
/c/slb/virt 12/service 443 https/http
    xforward ena
    httpmod hsts_insert
/c/slb/virt 12/service 443 https/ssl
    srvrcert cert certname
    sslpol ssl-Policy
/c/slb/virt 12/service 80 http
    group 15
    rport 80
    pbind clientip
    dbind forceproxy
/c/slb/virt 12/service 80 http/http
    xforward ena
    
/c/slb/virt 14
    dis
    ipver v4
    vip 1.1.4.4
    rtsrcmac ena
    vname ""my name2""
    ", $"_all_")] $"dictionary")) (VDict [(KS $"VIP_cfg", VDict [(KS $"1.1.1.1", VDict [(KS $"config_state", VStr $"dis"); (KS $"ipver", VStr $"v4"); (KS $"rtsrcmac", VStr $"ena"); (KS $"services", VDict [(KS $"443", VDict [(KS $"https", VDict [(KS $"dbind", VStr $"forceproxy"); (KS $"group_seq", VStr $"15"); (KS $"pbind", VStr $"clientip"); (KS $"real_port", VStr $"443")]); (KS $"https/http", VDict [(KS $"httpmod", VStr $"hsts_insert"); (KS $"xforward", VStr $"ena")])]); (KS $"80", VDict [(KS $"http", VDict [(KS $"dbind", VStr $"forceproxy"); (KS $"group_seq", VStr $"15"); (KS $"pbind", VStr $"clientip"); (KS $"real_port", VStr $"80")]); (KS $"http/http", VDict [(KS $"xforward", VStr $"ena")])])]); (KS $"ssl_profile", VDict [(KS $"ssl", VStr $"https/ssl"); (KS $"ssl_profile", VStr $"ssl-Policy"); (KS $"ssl_server_cert", VStr $"certname"); (KS $"virt_seq", VStr $"12")]); (KS $"vip_name", VStr $"my name"); (KS $"virt_seq", VStr $"12")]); (KS $"1.1.4.4", VDict [(KS $"config_state", VStr $"dis"); (KS $"ipver", VStr $"v4"); (KS $"rtsrcmac", VStr $"ena"); (KS $"vip_name", VStr $"my name2"); (KS $"virt_seq", VStr $"14")])])]) = true.
Proof. vm_compute. reflexivity. Qed.

(** test/pytest/test_answers_and_docs.py test_issue_20_answer_2 *)
Example answers_and_docs_issue_20_answer_2 : is_ (at_ [] (ttp_result (fun _ => None) false sort_set ({| w_file := fun p => assoc p []; w_dir := fun p => assoc p []; w_tdir := None; w_exec := fun _ => out_of_model |}) $"" [] $"
<template name=""mcast"" results=""per_template"">
<group name=""mcast_entries.{{ overlay_src }}"">
({{ overlay_src | _start_ | replace(""*"", ""'*'"") }}, {{ overlay_grp | IP }})
({{ overlay_src | _start_ | IP }},                  {{ overlay_grp | IP }}), {{ entry_uptime }}/{{ entry_state_or_timer }}, flags: {{ entry_flags }}
({{ overlay_src | _start_ | replace(""*"", ""'*'"") }}, {{ overlay_grp | IP }}), {{ entry_uptime }}/{{ entry_state_or_timer }}, RP {{ rp }}, flags: {{ entry_flags }}
  Incoming interface: {{ incoming_intf }}, RPF nbr {{ rpf_neighbor }}
    <group name=""oil_entries*"">
    {{ outgoing_intf }}, Forward/Sparse,  {{ oil_uptime }}/{{ oil_state_or_timer}}
    {{ outgoing_intf }}, ({{ underlay_src | IP }}, {{ underlay_grp | IP }}), Forward/Sparse, {{ oil_uptime }}/{{ oil_state_or_timer}}  
    </group>
</group>
</template>
" [(VStr $"
(*, 239.100.100.101)    
    LISP0.4200, (192.2.101.65, 232.0.3.1), Forward/Sparse, 1d18h/stopped
    LISP0.4201, (192.2.101.70, 232.0.3.1), Forward/Sparse, 2d05h/stopped
    
(192.2.31.3, 239.100.100.100), 2d05h/00:01:19, flags: FT
  Incoming interface: Vlan1029, RPF nbr 0.0.0.0
  Outgoing interface list:
    LISP0.4100, (192.2.101.70, 232.0.3.1), Forward/Sparse, 2d05h/stopped
    LISP0.4101, (192.2.101.70, 232.0.3.1), Forward/Sparse, 2d05h/stopped

(*, 239.100.100.100), 6d20h/00:03:28, RP 192.2.199.1, flags: S
  Incoming interface: Null, RPF nbr 0.0.0.0
  Outgoing interface list:
    Vlan3014, Forward/Sparse, 1d18h/00:03:28
    LISP0.4100, (192.2.101.65, 232.0.3.1), Forward/Sparse, 1d18h/stopped
", $"mcast")] $"dictionary")) (VDict [(KS $"mcast", VDict [(KS $"mcast_entries", VDict [(KS $"'*'", VList [VDict [(KS $"overlay_grp", VStr $"239.100.100.101")]; VDict [(KS $"entry_flags", VStr $"S"); (KS $"entry_state_or_timer", VStr $"00:03:28"); (KS $"entry_uptime", VStr $"6d20h"); (KS $"incoming_intf", VStr $"Null"); (KS $"oil_entries", VList [VDict [(KS $"oil_state_or_timer", VStr $"00:03:28"); (KS $"oil_uptime", VStr $"1d18h"); (KS $"outgoing_intf", VStr $"Vlan3014"); (KS $"underlay_grp", VStr $"232.0.3.1"); (KS $"underlay_src", VStr $"192.2.101.65")]]); (KS $"overlay_grp", VStr $"239.100.100.100"); (KS $"rp", VStr $"192.2.199.1"); (KS $"rpf_neighbor", VStr $"0.0.0.0")]]); (KS $"192.2.31.3", VDict [(KS $"entry_flags", VStr $"FT"); (KS $"entry_state_or_timer", VStr $"00:01:19"); (KS $"entry_uptime", VStr $"2d05h"); (KS $"incoming_intf", VStr $"Vlan1029"); (KS $"overlay_grp", VStr $"239.100.100.100"); (KS $"rpf_neighbor", VStr $"0.0.0.0")])])])]) = true.
Proof. vm_compute. reflexivity. Qed.

(** test/pytest/test_answers_and_docs.py test_github_issue_24 *)
Example answers_and_docs_github_issue_24 : is_ (at_ [] (ttp_result (fun _ => None) false sort_set ({| w_file := fun p => assoc p []; w_dir := fun p => assoc p []; w_tdir := None; w_exec := fun _ => out_of_model |}) $"" [] $"
<template name=""VIP_cfg"" results=""per_template"">
<group name=""{{ vs_instance }}"" default="""">
{{ vs_instance }}: IP4 {{ vs_ip }},{{ ignore("".+"") }}
<group name=""services*"" default="""">
    {{ vs_service }}: rport {{ rport }},{{ ignore("".+"") }}
<group name=""pool*"" default="""">
        {{ node_id }}: {{ node_ip }},{{ ignore("".+"") }}
            Reason: {{ reason }}
</group>
</group>
</group>
</template>    
    " [(VStr $"
19: IP4 1.1.1.1,   00:03:b2:78:04:13, vname portal, NO SERVICES UP
    Virtual Services:
    http: rport http, group 11, health http (HTTP), pbind clientip
        Real Servers:
        22: 10.10.10.10, web1, group ena, health  (runtime HTTP), 0 ms, FAILED
            Reason: N/A
        23: 10.11.11.11, web2, group ena, health  (runtime HTTP), 0 ms, FAILED
            Reason: N/A
    https: rport https, group 12, health tcp (TCP), pbind clientip
        Real Servers:
        22: 10.10.10.10, web1, group ena, health  (runtime TCP), 0 ms, FAILED
            Reason: N/A
        23: 10.11.11.11, web2, group ena, health  (runtime TCP), 0 ms, FAILED
            Reason: N/A
    ", $"_all_")] $"dictionary")) (VDict [(KS $"VIP_cfg", VDict [(KS $"19", VDict [(KS $"services", VList [VDict [(KS $"pool", VList [VDict [(KS $"node_id", VStr $"22"); (KS $"node_ip", VStr $"10.10.10.10"); (KS $"reason", VStr $"N/A")]; VDict [(KS $"node_id", VStr $"23"); (KS $"node_ip", VStr $"10.11.11.11"); (KS $"reason", VStr $"N/A")]]); (KS $"rport", VStr $"http"); (KS $"vs_service", VStr $"http")]; VDict [(KS $"pool", VList [VDict [(KS $"node_id", VStr $"22"); (KS $"node_ip", VStr $"10.10.10.10"); (KS $"reason", VStr $"N/A")]; VDict [(KS $"node_id", VStr $"23"); (KS $"node_ip", VStr $"10.11.11.11"); (KS $"reason", VStr $"N/A")]]); (KS $"rport", VStr $"https"); (KS $"vs_service", VStr $"https")]]); (KS $"vs_ip", VStr $"1.1.1.1")])])]) = true.
Proof. vm_compute. reflexivity. Qed.

(** test/pytest/test_answers_and_docs.py test_github_issue_32 *)
Example answers_and_docs_github_issue_32 : is_ (at_ [] (ttp_result (fun _ => None) false sort_set ({| w_file := fun p => assoc p []; w_dir := fun p => assoc p []; w_tdir := None; w_exec := fun _ => out_of_model |}) $"" [] $"
<group method=""table"">
.id={{ id | exclude("";"") }};export-route-targets={{ export-route-targets }};import-route-targets={{ import-route-targets }};interfaces={{ interfaces }};route-distinguisher={{ route-distinguisher }};routing-mark={{ routing-mark }}
.id={{ id }};comment{{ comment }};export-route-targets={{ export-route-targets }};import-route-targets={{ import-route-targets }};interfaces={{ interfaces }};route-distinguisher={{ route-distinguisher }};routing-mark={{ routing-mark }}
</group>
    " [(VStr $"
.id=*c;export-route-targets=65001:48;65001:0;import-route-targets=65001:48;interfaces=lo-ext;vlan56;route-distinguisher=65001:48;routing-mark=VRF_EXT
.id=*10;comment=;export-route-targets=65001:80;import-route-targets=65001:80;65001:0;interfaces=lo-private;route-distinguisher=65001:80;routing-mark=VRF_PRIVATE
    ", $"_all_")] $"flat_list")) (VList [VDict [(KS $"export-route-targets", VStr $"65001:48;65001:0"); (KS $"id", VStr $"*c"); (KS $"import-route-targets", VStr $"65001:48"); (KS $"interfaces", VStr $"lo-ext;vlan56"); (KS $"route-distinguisher", VStr $"65001:48"); (KS $"routing-mark", VStr $"VRF_EXT")]; VDict [(KS $"comment", VStr $"="); (KS $"export-route-targets", VStr $"65001:80"); (KS $"id", VStr $"*10"); (KS $"import-route-targets", VStr $"65001:80;65001:0"); (KS $"interfaces", VStr $"lo-private"); (KS $"route-distinguisher", VStr $"65001:80"); (KS $"routing-mark", VStr $"VRF_PRIVATE")]]) = true.
Proof. vm_compute. reflexivity. Qed.

(** test/pytest/test_answers_and_docs.py test_group_default_docs *)
Example answers_and_docs_group_default_docs : is_ (at_ [] (ttp_result (fun _ => None) false sort_set ({| w_file := fun p => assoc p []; w_dir := fun p => assoc p []; w_tdir := None; w_exec := fun _ => out_of_model |}) $"" [] $"
<input load=""text"">
device-hostame uptime is 27 weeks, 3 days, 10 hours, 46 minutes, 10 seconds
</input>

<group name=""uptime**"">
device-hostame uptime is {{ uptime | PHRASE }}
    <group name=""software"">
     software version {{ version | default(""uncknown"") }}
    </group>
</group>

<group name=""domain"" default=""Uncknown"">
Default domain is {{ fqdn }}
</group>
    " [] $"list")) (VList [VList [VDict [(KS $"domain", VDict [(KS $"fqdn", VStr $"Uncknown")]); (KS $"uptime", VDict [(KS $"software", VDict [(KS $"version", VStr $"uncknown")]); (KS $"uptime", VStr $"27 weeks, 3 days, 10 hours, 46 minutes, 10 seconds")])]]]) = true.
Proof. vm_compute. reflexivity. Qed.

(** test/pytest/test_answers_and_docs.py test_github_issue_33_answer_1 *)
Example answers_and_docs_github_issue_33_answer_1 : is_ (at_ [] (ttp_result (fun _ => None) false sort_set ({| w_file := fun p => assoc p []; w_dir := fun p => assoc p []; w_tdir := None; w_exec := fun _ => out_of_model |}) $"" [] $"
<input load=""text"">
server 1.1.1.1
server 2.2.2.2 3.3.3.3
server 4.4.4.4 5.5.5.5 6.6.6.6
</input>

<group name=""servers"" method=""table"">
server {{ server | re(r""\S+"") | let(""servers_number"", 1 ) }}
server {{ server | re(r""\S+ \S+"") | let(""servers_number"", 2) }}
server {{ server | re(r""\S+ \S+ \S+"") | let(""servers_number"", 3) }}
</group>
    " [] $"list")) (VList [VList [VDict [(KS $"servers", VList [VDict [(KS $"server", VStr $"1.1.1.1"); (KS $"servers_number", VInt (1))]; VDict [(KS $"server", VStr $"2.2.2.2 3.3.3.3"); (KS $"servers_number", VInt (2))]; VDict [(KS $"server", VStr $"4.4.4.4 5.5.5.5 6.6.6.6"); (KS $"servers_number", VInt (3))]])]]]) = true.
Proof. vm_compute. reflexivity. Qed.

(** test/pytest/test_answers_and_docs.py test_github_issue_37_cleaned_up_data *)
Example answers_and_docs_github_issue_37_cleaned_up_data : is_ (at_ [] (ttp_result (fun _ => None) false sort_set ({| w_file := fun p => assoc p []; w_dir := fun p => assoc p []; w_tdir := None; w_exec := fun _ => out_of_model |}) $"" [] $"
<group name=""service"">
    service {{ ignore }}
    <group name=""epipe.{{ service_id }}"">
        epipe {{ service_id }} customer {{ customer_id }} create                    
            <group name=""regular_sdp.{{r_spoke_sdp_id}}**""> 
            spoke-sdp {{ r_spoke_sdp_id }}:{{vc_id }} create             
                no shutdown {{ state | set(""enabled"") }}
            </group> 
        </group>
</group>
    " [(VStr $"
    service foo
        epipe 103076 customer 160 create
            description ""vf=EWL:cn=TATA_COM:tl=2C02495918:st=act:""
            service-mtu 1588
            service-name ""EPIPE service-103076 DKTN08a-D0105 (63.130.108.41)""
            sap 1/2/12:20.* create
                description ""vf=EWL:cn=TATA_COM:tl=2C02495890:st=act:""
                multi-service-site ""TATA_VSNL_STRAT_A206_LAN10""
                ingress
                    queue-override
                        queue 1 create
                            cbs default
                            mbs 40 kilobytes
                            rate 10000 cir 10000
                        exit
                    exit
                exit
                egress
                    queue-override
                        queue 1 create
                            cbs default
                            mbs 40 kilobytes
                            rate 10000 cir 10000
                        exit
                    exit
                exit
                accounting-policy 4
                no shutdown
            exit
            spoke-sdp 8051:103076 create
                no shutdown
            exit
            no shutdown
        exit
        epipe 103206 customer 1904 create
            description ""vf=1273:cn=skanska:tl=3C02407455:st=act:no='SKANSKA UK PLC Stepney Green E1 3DG'""
            service-mtu 1988
            service-name ""EPIPE service-103206 DKTN08a-D0105 (63.130.108.41)""
            sap 2/2/3:401.100 create
                description ""vf=1273:cn=skanska:tl=3C02407455:st=act:no='SKANSKA UK PLC Stepney Green E1 3DG'""
                multi-service-site ""SKANSKA_E13DG_A825_LAN1""
                ingress
                    qos 11010
                    queue-override
                        queue 1 create
                            cbs default
                            mbs 1188 kilobytes
                            rate max cir 47500
                        exit
                        queue 3 create
                            cbs default
                            mbs 63 kilobytes
                            rate max cir 2500
                        exit
                    exit
                exit
                egress
                    qos 11010
                    queue-override
                        queue 1 create
                            cbs default
                            mbs 1188 kilobytes
                            rate max cir 47500
                        exit
                        queue 3 create
                            cbs default
                            mbs 63 kilobytes
                            rate max cir 2500
                        exit
                    exit
                exit
                collect-stats
                accounting-policy 4
                no shutdown
            exit
            spoke-sdp 8035:103206 create
                no shutdown
            exit
            no shutdown
        exit
    ", $"_all_")] $"list")) (VList [VList [VDict [(KS $"service", VDict [(KS $"epipe", VDict [(KS $"103076", VDict [(KS $"customer_id", VStr $"160"); (KS $"regular_sdp", VDict [(KS $"8051", VDict [(KS $"state", VStr $"enabled"); (KS $"vc_id", VStr $"103076")])])]); (KS $"103206", VDict [(KS $"customer_id", VStr $"1904"); (KS $"regular_sdp", VDict [(KS $"8035", VDict [(KS $"state", VStr $"enabled"); (KS $"vc_id", VStr $"103206")])])])])])]]]) = true.
Proof. vm_compute. reflexivity. Qed.

(** test/pytest/test_answers_and_docs.py test_github_issue_42 *)
Example answers_and_docs_github_issue_42 : is_ (at_ [] (ttp_result (fun _ => None) false sort_set ({| w_file := fun p => assoc p []; w_dir := fun p => assoc p []; w_tdir := None; w_exec := fun _ => out_of_model |}) $"" [] $"
<group name=""vrfs"">
vrf {{name}}
  <group name=""route-targets"">
  import route-target {{ _start_ }}
   {{ import | to_list | joinmatches }}
  </group>
  !
  <group name=""route-targets"">
  export route-target {{ _start_ }}
   {{ export | to_list | joinmatches }}
  </group>
</group>
    " [(VStr $"
vrf xyz
 address-family ipv4 unicast
  import route-target
   65000:3507
   65000:3511
   65000:5453
   65000:5535
  !
  export route-target
   65000:5453
   65000:5535
  !
 !
!    
    ", $"_all_")] $"list")) (VList [VList [VDict [(KS $"vrfs", VDict [(KS $"name", VStr $"xyz"); (KS $"route-targets", VList [VDict [(KS $"import", VList [VStr $"65000:3507"; VStr $"65000:3511"; VStr $"65000:5453"; VStr $"65000:5535"])]; VDict [(KS $"export", VList [VStr $"65000:5453"; VStr $"65000:5535"])]])])]]]) = true.
Proof. vm_compute. reflexivity. Qed.

(** test/pytest/test_answers_and_docs.py test_issue_45 *)
Example answers_and_docs_issue_45 : is_ (at_ [] (ttp_result (fun _ => None) false sort_set ({| w_file := fun p => assoc p []; w_dir := fun p => assoc p []; w_tdir := None; w_exec := fun _ => out_of_model |}) $"" [] $"
<group name=""vrfs*"">
    {{ name | _start_ }} {
        <group name=""forwarding_options"">
        forwarding-options { {{ _start_ }}
            <group name=""dhcp_relay"">
            dhcp-relay { {{ _start_ }}
            
                <group name=""server_group"">
                server-group { {{ _start_ }}
                    <group name=""dhcp*"">
                    {{ server_group_name1 | _start_ }} {
                        <group name=""helper_addresses*"">
                        {{ helper_address | IP }};
                        </group>
                    } {{ _end_ }}
                    </group>
                } {{ _end_ }}
                </group>
                
                <group name=""groups*"">
                group {{ group_name | _start_ }} {
                    active-server-group {{server_group_name2}};
                } {{ _end_ }}
                </group>
                
            } {{ _end_ }}
            </group>
        } {{ _end_ }}
        </group>
    } {{ _end_ }}
</group>    
    " [(VStr $"
    vrf2 {
        forwarding-options {
            dhcp-relay {
                server-group {
                    IN_MEDIA_SIGNALING {
                        10.154.6.147;
                    }
                    DHCP-NGN-SIG {
                        10.154.6.147;
                    }
                }
                group group2 {
                    active-server-group IN_MEDIA_SIGNALING;
                    overrides {
                        trust-option-82;
                    }
                }
                group NGN-SIG {
                    active-server-group DHCP-NGN-SIG;
                    overrides {
                        trust-option-82;
                    }
                }
            }
        }
    }
    ", $"_all_")] $"list")) (VList [VList [VDict [(KS $"vrfs", VList [VDict [(KS $"forwarding_options", VDict [(KS $"dhcp_relay", VDict [(KS $"groups", VList [VDict [(KS $"group_name", VStr $"group2"); (KS $"server_group_name2", VStr $"IN_MEDIA_SIGNALING")]; VDict [(KS $"group_name", VStr $"NGN-SIG"); (KS $"server_group_name2", VStr $"DHCP-NGN-SIG")]]); (KS $"server_group", VDict [(KS $"dhcp", VList [VDict [(KS $"helper_addresses", VList [VDict [(KS $"helper_address", VStr $"10.154.6.147")]]); (KS $"server_group_name1", VStr $"IN_MEDIA_SIGNALING")]; VDict [(KS $"helper_addresses", VList [VDict [(KS $"helper_address", VStr $"10.154.6.147")]]); (KS $"server_group_name1", VStr $"DHCP-NGN-SIG")]])])])]); (KS $"name", VStr $"vrf2")]])]]]) = true.
Proof. vm_compute. reflexivity. Qed.

(** test/pytest/test_answers_and_docs.py test_issue_45_filtering_fix *)
Example answers_and_docs_issue_45_filtering_fix : is_ (at_ [] (ttp_result (fun _ => None) false sort_set ({| w_file := fun p => assoc p []; w_dir := fun p => assoc p []; w_tdir := None; w_exec := fun _ => out_of_model |}) $"" [] $"
<group name=""vrfs*"">
    {{ name | _start_ }} {
        <group name=""forwarding_options"">
        forwarding-options { {{ _start_ }}
            <group name=""dhcp_relay"">
            dhcp-relay { {{ _start_ }}
            
                <group name=""server_group"">
                server-group { {{ _start_ }}
                    <group name=""dhcp*"">
                    {{ server_group_name1 | _start_ | exclude(""overrides"") }} {
                        <group name=""helper_addresses*"">
                        {{ helper_address | IP }};
                        </group>
                    } {{ _end_ }}
                    </group>
                } {{ _end_ }}
                </group>
                
                <group name=""groups*"">
                group {{ group_name | _start_ }} {
                    active-server-group {{server_group_name2}};
                } {{ _end_ }}
                </group>
                
            } {{ _end_ }}
            </group>
        } {{ _end_ }}
        </group>
    } {{ _end_ }}
</group>    
    " [(VStr $"
    vrf2 {
        forwarding-options {
            dhcp-relay {
                server-group {
                    IN_MEDIA_SIGNALING {
                        10.154.6.147;
                    }
                    DHCP-NGN-SIG {
                        10.154.6.147;
                    }
                }
                group group2 {
                    active-server-group IN_MEDIA_SIGNALING;
                    overrides {
                        trust-option-82;
                    }
                }
                group NGN-SIG {
                    active-server-group DHCP-NGN-SIG;
                    overrides {
                        trust-option-82;
                    }
                }
            }
        }
    }
    ", $"_all_")] $"list")) (VList [VList [VDict [(KS $"vrfs", VList [VDict [(KS $"forwarding_options", VDict [(KS $"dhcp_relay", VDict [(KS $"groups", VList [VDict [(KS $"group_name", VStr $"group2"); (KS $"server_group_name2", VStr $"IN_MEDIA_SIGNALING")]; VDict [(KS $"group_name", VStr $"NGN-SIG"); (KS $"server_group_name2", VStr $"DHCP-NGN-SIG")]]); (KS $"server_group", VDict [(KS $"dhcp", VList [VDict [(KS $"helper_addresses", VList [VDict [(KS $"helper_address", VStr $"10.154.6.147")]]); (KS $"server_group_name1", VStr $"IN_MEDIA_SIGNALING")]; VDict [(KS $"helper_addresses", VList [VDict [(KS $"helper_address", VStr $"10.154.6.147")]]); (KS $"server_group_name1", VStr $"DHCP-NGN-SIG")]])])])]); (KS $"name", VStr $"vrf2")]])]]]) = true.
Proof. vm_compute. reflexivity. Qed.

(** test/pytest/test_answers_and_docs.py test_issue_48_answer *)
Example answers_and_docs_issue_48_answer : is_ (at_ [] (ttp_result (fun _ => None) false sort_set ({| w_file := fun p => assoc p []; w_dir := fun p => assoc p []; w_tdir := None; w_exec := fun _ => out_of_model |}) $"" [] $"
<vars>
descr_chain = [
    ""PHRASE"",
    ""exclude('Prerequisite(s)')"",
    ""exclude('Department(s)')"",
    ""joinmatches""
]
</vars>

<group>
{{ course }}*{{ code }} {{ name | PHRASE }} {{ semester }} ({{ lecture_lab_time }}) [{{ weight }}]
{{ description | chain(descr_chain) }}
Prerequisite(s): {{ prereqs | ORPHRASE }}
Department(s): {{ department | ORPHRASE }}   
</group>
    " [(VStr $"
ECON*3400 The Economics of Personnel Management U (3-0) [0.50]
In this course, we examine the economics of personnel management in organizations.
Using mainstream microeconomic and behavioural economic theory, we will consider
such issues as recruitment, promotion, financial and non-financial incentives,
compensation, job performance, performance evaluation, and investment in personnel.
The interplay between theoretical models and empirical evidence will be emphasized in
considering different approaches to the management of personnel.
Prerequisite(s): ECON*2310 or ECON*2200
Department(s): Department of Economics and Finance    

ECON*4400 The Economics of Personnel Management U (7-1) [0.90]
In this course, we examine the economics of personnel management in organizations.
Using mainstream microeconomic and behavioural economic theory, we will consider
such issues as recruitment, promotion, financial and non-financial incentives,
compensation, job performance, performance evaluation, and investment in personnel.
Prerequisite(s): ECON*2310
Department(s): Department of Economics
    ", $"_all_")] $"list")) (VList [VList [VList [VDict [(KS $"code", VStr $"3400"); (KS $"course", VStr $"ECON"); (KS $"department", VStr $"Department of Economics and Finance"); (KS $"description", VStr $"In this course, we examine the economics of personnel management in organizations.
Using mainstream microeconomic and behavioural economic theory, we will consider
such issues as recruitment, promotion, financial and non-financial incentives,
compensation, job performance, performance evaluation, and investment in personnel.
The interplay between theoretical models and empirical evidence will be emphasized in
considering different approaches to the management of personnel."); (KS $"lecture_lab_time", VStr $"3-0"); (KS $"name", VStr $"The Economics of Personnel Management"); (KS $"prereqs", VStr $"ECON*2310 or ECON*2200"); (KS $"semester", VStr $"U"); (KS $"weight", VStr $"0.50")]; VDict [(KS $"code", VStr $"4400"); (KS $"course", VStr $"ECON"); (KS $"department", VStr $"Department of Economics"); (KS $"description", VStr $"In this course, we examine the economics of personnel management in organizations.
Using mainstream microeconomic and behavioural economic theory, we will consider
such issues as recruitment, promotion, financial and non-financial incentives,
compensation, job performance, performance evaluation, and investment in personnel."); (KS $"lecture_lab_time", VStr $"7-1"); (KS $"name", VStr $"The Economics of Personnel Management"); (KS $"prereqs", VStr $"ECON*2310"); (KS $"semester", VStr $"U"); (KS $"weight", VStr $"0.90")]]]]) = true.
Proof. vm_compute. reflexivity. Qed.

(** test/pytest/test_answers_and_docs.py test_slack_channel_answer_for_Noif *)
Example answers_and_docs_slack_channel_answer_for_Noif : is_ (at_ [] (ttp_result (fun _ => None) false sort_set ({| w_file := fun p => assoc p []; w_dir := fun p => assoc p []; w_tdir := None; w_exec := fun _ => out_of_model |}) $"" [] $"
<vars>
default_values = {
    ""comment"": """",
    ""disabled"": False
}
</vars>

<group default=""default_values"">
## not disabled and no comment
/ip address add address={{ ip | _start_ }} interface={{ interface }} network={{ network }}

## not disabled and comment with/without quotes
/ip address add address={{ ip | _start_ }}/{{ mask }} comment={{ comment | ORPHRASE | exclude(""disabled="") | strip('""')}} interface={{ interface }} network={{ network }}

## disabled no comment
/ip address add address={{ ip | _start_ }}/{{ mask }} disabled={{ disabled }} interface={{ interface }} network={{ network }}

## disabled with comment with/without quotes
/ip address add address={{ ip | _start_ }}/{{ mask }} comment={{ comment | ORPHRASE | exclude(""disabled="") | strip('""') }} disabled={{ disabled }} interface={{ interface }} network={{ network }}
</group>
    " [(VStr $"
# not disabled and no comment
/ip address add address=10.4.1.245 interface=lo0 network=10.4.1.245
/ip address add address=10.4.1.246 interface=lo1 network=10.4.1.246
# not disabled and comment with no quotes
/ip address add address=10.9.48.241/29 comment=SITEMON interface=ether2 network=10.9.48.240
/ip address add address=10.9.48.233/29 comment=Camera interface=vlan205@bond1 network=10.9.48.232
/ip address add address=10.9.49.1/24 comment=SM-Management interface=vlan200@bond1 network=10.9.49.0
# not disabled and comment with quotes
/ip address add address=10.4.1.130/30 comment=""to core01"" interface=vlan996@bond4 network=10.4.1.128
/ip address add address=10.4.250.28/29 comment=""BH 01"" interface=vlan210@bond1 network=10.4.250.24
/ip address add address=10.9.50.13/30 comment=""Cust: site01-PE"" interface=vlan11@bond1 network=10.9.50.12
# disabled no comment
/ip address add address=10.0.0.2/30 disabled=yes interface=bridge:customer99 network=10.0.0.0
# disabled with comment
/ip address add address=169.254.1.100/24 comment=Cambium disabled=yes interface=vlan200@bond1 network=169.254.1.0
# disabled with comment with quotes
/ip address add address=10.4.248.20/29 comment=""Backhaul to AGR (Test Segment)"" disabled=yes interface=vlan209@bond1 network=10.4.248.16
    ", $"_all_")] $"flat_list")) (VList [VDict [(KS $"comment", VStr $""); (KS $"disabled", VBool false); (KS $"interface", VStr $"lo0"); (KS $"ip", VStr $"10.4.1.245"); (KS $"network", VStr $"10.4.1.245")]; VDict [(KS $"comment", VStr $""); (KS $"disabled", VBool false); (KS $"interface", VStr $"lo1"); (KS $"ip", VStr $"10.4.1.246"); (KS $"network", VStr $"10.4.1.246")]; VDict [(KS $"comment", VStr $"SITEMON"); (KS $"disabled", VBool false); (KS $"interface", VStr $"ether2"); (KS $"ip", VStr $"10.9.48.241"); (KS $"mask", VStr $"29"); (KS $"network", VStr $"10.9.48.240")]; VDict [(KS $"comment", VStr $"Camera"); (KS $"disabled", VBool false); (KS $"interface", VStr $"vlan205@bond1"); (KS $"ip", VStr $"10.9.48.233"); (KS $"mask", VStr $"29"); (KS $"network", VStr $"10.9.48.232")]; VDict [(KS $"comment", VStr $"SM-Management"); (KS $"disabled", VBool false); (KS $"interface", VStr $"vlan200@bond1"); (KS $"ip", VStr $"10.9.49.1"); (KS $"mask", VStr $"24"); (KS $"network", VStr $"10.9.49.0")]; VDict [(KS $"comment", VStr $"to core01"); (KS $"disabled", VBool false); (KS $"interface", VStr $"vlan996@bond4"); (KS $"ip", VStr $"10.4.1.130"); (KS $"mask", VStr $"30"); (KS $"network", VStr $"10.4.1.128")]; VDict [(KS $"comment", VStr $"BH 01"); (KS $"disabled", VBool false); (KS $"interface", VStr $"vlan210@bond1"); (KS $"ip", VStr $"10.4.250.28"); (KS $"mask", VStr $"29"); (KS $"network", VStr $"10.4.250.24")]; VDict [(KS $"comment", VStr $"Cust: site01-PE"); (KS $"disabled", VBool false); (KS $"interface", VStr $"vlan11@bond1"); (KS $"ip", VStr $"10.9.50.13"); (KS $"mask", VStr $"30"); (KS $"network", VStr $"10.9.50.12")]; VDict [(KS $"comment", VStr $""); (KS $"disabled", VStr $"yes"); (KS $"interface", VStr $"bridge:customer99"); (KS $"ip", VStr $"10.0.0.2"); (KS $"mask", VStr $"30"); (KS $"network", VStr $"10.0.0.0")]; VDict [(KS $"comment", VStr $"Cambium"); (KS $"disabled", VStr $"yes"); (KS $"interface", VStr $"vlan200@bond1"); (KS $"ip", VStr $"169.254.1.100"); (KS $"mask", VStr $"24"); (KS $"network", VStr $"169.254.1.0")]; VDict [(KS $"comment", VStr $"Backhaul to AGR (Test Segment)"); (KS $"disabled", VStr $"yes"); (KS $"interface", VStr $"vlan209@bond1"); (KS $"ip", VStr $"10.4.248.20"); (KS $"mask", VStr $"29"); (KS $"network", VStr $"10.4.248.16")]]) = true.
Proof. vm_compute. reflexivity. Qed.

(** test/pytest/test_answers_and_docs.py test_slack_answer_3 *)
Example answers_and_docs_slack_answer_3 : is_ (at_ [] (ttp_result (fun _ => None) false sort_set ({| w_file := fun p => assoc p []; w_dir := fun p => assoc p []; w_tdir := None; w_exec := fun _ => out_of_model |}) $"" [] $"
        <group name=""service.vprns*.{{id}}**"">
        vprn {{ id }} name {{ name | ORPHRASE | strip('""') }} customer {{ ignore }} create
            <group name=""ospf**"">
            ospf {{ _start_ }}
                area {{ area }}
                    <group name=""interfaces*"">
                    interface {{ name | ORPHRASE | strip('""') }}
                    </group>
            </group>
            <group name=""ospf3**"">
            ospf3 0 {{ _start_ }}
                area {{ area }}
                    <group name=""interfaces*"">
                    interface {{ name | ORPHRASE | strip('""') }}
                    </group>
            </group>
        </group>
    " [(VStr $"
    service
        vprn 4 name ""ospf_version3_vprn"" customer 40 create
            ospf
                area 0.0.0.0
                    interface ""interface-one""
            ospf3 0
                area 0.0.0.0
                    interface ""interface-two""
        vprn 5 name ""vprn5"" customer 50 create
            ospf
                area 0.0.0.0
                    interface ""interface-three""
    ", $"_all_")] $"list")) (VList [VList [VDict [(KS $"service", VDict [(KS $"vprns", VList [VDict [(KS $"4", VDict [(KS $"name", VStr $"ospf_version3_vprn"); (KS $"ospf", VDict [(KS $"area", VStr $"0.0.0.0"); (KS $"interfaces", VList [VDict [(KS $"name", VStr $"interface-one")]])]); (KS $"ospf3", VDict [(KS $"area", VStr $"0.0.0.0"); (KS $"interfaces", VList [VDict [(KS $"name", VStr $"interface-two")]])])]); (KS $"5", VDict [(KS $"name", VStr $"vprn5"); (KS $"ospf", VDict [(KS $"area", VStr $"0.0.0.0"); (KS $"interfaces", VList [VDict [(KS $"name", VStr $"interface-three")]])])])]])])]]]) = true.
Proof. vm_compute. reflexivity. Qed.

(** test/pytest/test_answers_and_docs.py test_issue_45_for_junos_cfg *)
Example answers_and_docs_issue_45_for_junos_cfg : is_ (at_ [] (ttp_result (fun _ => None) false sort_set ({| w_file := fun p => assoc p []; w_dir := fun p => assoc p []; w_tdir := None; w_exec := fun _ => out_of_model |}) $"" [] $"
<group name=""system_level"">
system { {{ _start_ }}
    host-name {{ HOSTNAME }};
    time-zone {{ TZ }};
    default-address-selection; {{ default_address_selection | set(True) }}
    no-redirects; {{ no_redirects | set(True) }}
    no-ping-record-route; {{ no_ping_record_route | set(True) }}
    no-ping-time-stamp; {{ no_ping_time_stamp | set(True) }}
    
 <group name=""services"">
    services { {{ _start_ }}
    <group name=""{{ service }}"">
        {{ service }} {
            http; {{ http | set(true) }}
            https; {{ https | set(true) }}
            no-tcp-forwarding; {{ no-tcp-fwding | set(true) }}
            protocol-version {{ ssh-proto }};
            connection-limit {{ connection-limit | DIGIT }};
            rate-limit {{rate-limit | DIGIT }};
            root-login deny; {{ root-login | set(false) }}
            max-sessions-per-connection {{ max-sessions | DIGIT }};
            client-alive-count-max {{ client-alive-count-max | DIGIT }};
            client-alive-interval {{ client-alive-interval | DIGIT }};
          <group name=""ssh"">
            ssh; {{ ssh | set(true) }}
          </group>
          <group name=""ssh"">
            ssh { {{ _start_ }}
                connection-limit {{ connection-limit | DIGIT }};
                rate-limit {{ rate-limit | DIGIT }};
            } {{ _end_ }}
          </group>
        } {{ _end_ }}
    </group>
    } {{ _end_ }}
 </group>
 <group name=""internet-options"">
    internet-options { {{ _start_ }}
        icmpv4-rate-limit packet-rate {{ packet-rate| DIGIT }};
        icmpv6-rate-limit packet-rate {{ packet-rate| DIGIT }};
        no-source-quench; {{ no-source-quench | set(true) }}
        tcp-drop-synfin-set; {{ tcp-drop-synfin-set | set(true) }}
        no-tcp-reset {{ no-tcp-reset }};
    } {{ _end_ }}
 </group>
    authentication-order [{{ authentication-order }}];
 <group name=""ports"">
    ports { {{ _start_ }}
        auxiliary disable; {{ auxiliary | set(false) }}
    } {{ _end_ }}
 </group>
 <group name=""root-authentication"">
    root-authentication { {{ _start_ }}
        encrypted-password ""{{ encrypted-password }}""; ## SECRET-DATA
    } {{ _end_ }}
 </group>
 <group name=""dns"" itemize=""name_server"">
    name-server {  {{ _start_ }}
        {{ name_server | IP | _line_ | to_list }};
    } {{ _end_ }}
 </group>
 <group name=""commit"">
    commit { {{ _start_ }}
        synchronize; {{ commit_sync | set(true) }}
        persist-groups-inheritance; {{ commit_persist-groups-inherit | set(true) }}
    } {{ _end_ }}
 </group> 
 <group name=""tacacs"">
    tacplus-server { {{ _start_ }}
       <group name=""tacacs-servers.{{ tac_server }}"">
        {{ tac_server | IP }} {
            port {{ tac_port }};
            secret ""{{ tac_secret }}""; ## SECRET-DATA
            source-address {{ tac_source | IP }};
        } {{ end }}
        </group>
    } {{ end }}
 </group>
} {{ end }}
</group>
    " [(VStr $"
system {
    host-name LAB-MX-1;
    time-zone some/time;
    default-address-selection;
    no-redirects;
    no-ping-record-route;
    no-ping-time-stamp;
    tacplus-server {
        1.1.1.1 {
            port 49;
            secret ""<SECRET_HASH>""; ## SECRET-DATA
            source-address 5.5.5.5;
        }
        2.2.2.2 {
            port 49;
            secret ""<SECRET_HASH>""; ## SECRET-DATA
            source-address 5.5.5.5;
        }
        4.4.4.4 {
            port 49;
            secret ""<SECRET_HASH>""; ## SECRET-DATA
            source-address 5.5.5.5;
        }
    }
    services {
        ssh {
            root-login deny;
            no-tcp-forwarding;
            protocol-version v2;
            max-sessions-per-connection 32;
            client-alive-count-max 3;
            client-alive-interval 10;
            connection-limit 10;
            rate-limit 5;
        }
        netconf {
            ssh {
                connection-limit 10;
                rate-limit 4;
            }
        }
    }
}
    ", $"_all_")] $"list")) (VList [VList [VDict [(KS $"system_level", VDict [(KS $"HOSTNAME", VStr $"LAB-MX-1"); (KS $"TZ", VStr $"some/time"); (KS $"default_address_selection", VBool true); (KS $"no_ping_record_route", VBool true); (KS $"no_ping_time_stamp", VBool true); (KS $"no_redirects", VBool true); (KS $"services", VDict [(KS $"netconf", VDict [(KS $"ssh", VDict [(KS $"connection-limit", VStr $"10"); (KS $"rate-limit", VStr $"4")])]); (KS $"ssh", VDict [(KS $"client-alive-count-max", VStr $"3"); (KS $"client-alive-interval", VStr $"10"); (KS $"connection-limit", VStr $"10"); (KS $"max-sessions", VStr $"32"); (KS $"no-tcp-fwding", VBool true); (KS $"rate-limit", VStr $"5"); (KS $"root-login", VBool false); (KS $"ssh-proto", VStr $"v2")])]); (KS $"tacacs", VDict [(KS $"tacacs-servers", VDict [(KS $"1.1.1.1", VDict [(KS $"tac_port", VStr $"49"); (KS $"tac_secret", VStr $"<SECRET_HASH>"); (KS $"tac_source", VStr $"5.5.5.5")]); (KS $"2.2.2.2", VDict [(KS $"tac_port", VStr $"49"); (KS $"tac_secret", VStr $"<SECRET_HASH>"); (KS $"tac_source", VStr $"5.5.5.5")]); (KS $"4.4.4.4", VDict [(KS $"tac_port", VStr $"49"); (KS $"tac_secret", VStr $"<SECRET_HASH>"); (KS $"tac_source", VStr $"5.5.5.5")])])])])]]]) = true.
Proof. vm_compute. reflexivity. Qed.

(** test/pytest/test_answers_and_docs.py test_issue_51_answer *)
Example answers_and_docs_issue_51_answer : is_ (at_ [] (ttp_result (fun _ => None) false sort_set ({| w_file := fun p => assoc p []; w_dir := fun p => assoc p []; w_tdir := None; w_exec := fun _ => out_of_model |}) $"" [] $"
<group name=""people"">
Name:{{ name }}&lt;br&gt;
</group>
    " [(VStr $"
Name:Jane<br>
Name:Michael<br>
Name:July<br>
    ", $"_all_")] $"list")) (VList [VList [VDict [(KS $"people", VList [VDict [(KS $"name", VStr $"Jane")]; VDict [(KS $"name", VStr $"Michael")]; VDict [(KS $"name", VStr $"July")]])]]]) = true.
Proof. vm_compute. reflexivity. Qed.

(** test/pytest/test_answers_and_docs.py test_start_with_set *)
Example answers_and_docs_start_with_set : is_ (at_ [] (ttp_result (fun _ => None) false sort_set ({| w_file := fun p => assoc p []; w_dir := fun p => assoc p []; w_tdir := None; w_exec := fun _ => out_of_model |}) $"" [] $"
authentication { {{ inactive | set(False) | _start_ }}
inactive: authentication { {{ inactive | set(True) | _start_ }}
    " [(VStr $"
authentication { 
inactive: authentication { 
    ", $"_all_")] $"list")) (VList [VList [VList [VDict [(KS $"inactive", VBool false)]; VDict [(KS $"inactive", VBool true)]]]]) = true.
Proof. vm_compute. reflexivity. Qed.

(** test/pytest/test_answers_and_docs.py test_vlans_parsing *)
Example answers_and_docs_vlans_parsing : is_ (at_ [] (ttp_result (fun _ => None) false sort_set ({| w_file := fun p => assoc p []; w_dir := fun p => assoc p []; w_tdir := None; w_exec := fun _ => out_of_model |}) $"" [] $"
            <group name=""ports_summary*"">
            {{ port }}  {{ mode }}  {{ encap }}  {{ satus }}  {{ native_vlan | DIGIT }}
            </group>

            <group name=""vlans_allowed"">
            Port      Vlans allowed on trunk {{ _start_ }}
            <group name=""interfaces*"">
            {{ port }}    {{ vlans | unrange('-', ',') | split("","") }}
            </group>
{{ _end_ }}
            </group>

            <group name=""vlans_active"">
            Port      Vlans allowed and active in management domain {{ _start_ }}
            <group name=""interfaces*"">
            {{ port }}    {{ vlans | unrange('-', ',') | split("","") }}
            </group>
{{ _end_ }}
            </group>

            <group name=""vlans_forwarding"">
            Port      Vlans in spanning tree forwarding state and not pruned {{ _start_ }}
            <group name=""interfaces*"">
            {{ port }}    {{ vlans | unrange('-', ',') | split("","") }}
            </group>
{{ _end_ }}
            </group>
    " [(VStr $"
            Port      Mode         Encapsulation  Status        Native vlan
            Gi0       on           802.1q         trunking      1
            Gi7       on           802.1q         trunking      1

            Port      Vlans allowed on trunk
            Gi0       1,8,999,1002-1005
            Gi7       1,100,120,1000,1002-1005

            Port      Vlans allowed and active in management domain
            Gi0       1,8,999
            Gi7       1,100,120,1000

            Port      Vlans in spanning tree forwarding state and not pruned
            Gi0       1,8,999
            Gi7       1,100,120,1000
    ", $"_all_")] $"list")) (VList [VList [VDict [(KS $"ports_summary", VList [VDict [(KS $"encap", VStr $"802.1q"); (KS $"mode", VStr $"on"); (KS $"native_vlan", VStr $"1"); (KS $"port", VStr $"Gi0"); (KS $"satus", VStr $"trunking")]; VDict [(KS $"encap", VStr $"802.1q"); (KS $"mode", VStr $"on"); (KS $"native_vlan", VStr $"1"); (KS $"port", VStr $"Gi7"); (KS $"satus", VStr $"trunking")]]); (KS $"vlans_active", VDict [(KS $"interfaces", VList [VDict [(KS $"port", VStr $"Gi0"); (KS $"vlans", VList [VStr $"1"; VStr $"8"; VStr $"999"])]; VDict [(KS $"port", VStr $"Gi7"); (KS $"vlans", VList [VStr $"1"; VStr $"100"; VStr $"120"; VStr $"1000"])]])]); (KS $"vlans_allowed", VDict [(KS $"interfaces", VList [VDict [(KS $"port", VStr $"Gi0"); (KS $"vlans", VList [VStr $"1"; VStr $"8"; VStr $"999"; VStr $"1002"; VStr $"1003"; VStr $"1004"; VStr $"1005"])]; VDict [(KS $"port", VStr $"Gi7"); (KS $"vlans", VList [VStr $"1"; VStr $"100"; VStr $"120"; VStr $"1000"; VStr $"1002"; VStr $"1003"; VStr $"1004"; VStr $"1005"])]])]); (KS $"vlans_forwarding", VDict [(KS $"interfaces", VList [VDict [(KS $"port", VStr $"Gi0"); (KS $"vlans", VList [VStr $"1"; VStr $"8"; VStr $"999"])]; VDict [(KS $"port", VStr $"Gi7"); (KS $"vlans", VList [VStr $"1"; VStr $"100"; VStr $"120"; VStr $"1000"])]])])]]]) = true.
Proof. vm_compute. reflexivity. Qed.

(** test/pytest/test_answers_and_docs.py test_asa_acls_issue_55 *)
Example answers_and_docs_asa_acls_issue_55 : is_ (at_ [] (ttp_result (fun _ => None) false sort_set ({| w_file := fun p => assoc p []; w_dir := fun p => assoc p []; w_tdir := None; w_exec := fun _ => out_of_model |}) $"" [] $"
<vars>
SVC_PORTS = ""tcp-udp|tcp|udp""
</vars>

<group name=""object-{{ object_type }}-groups**.{{ object_name }}**"">
object-group {{ object_type }} {{ object_name | _start_ }}
object-group {{ object_type }} {{ object_name | _start_ }} {{ protocol | re(""SVC_PORTS"")}}
 description {{ description | re("".*"") }}

 <group name=""network-objects"" itemize=""obj_name"" method=""table"">
 network-object object   {{ obj_name | }}
 network-object host     {{ obj_name | IP }}
 </group> 

 <group name=""group-objects"" itemize=""obj_name"" method=""table"">
 group-object            {{ obj_name }}
 </group>
 
 <group name=""group-objects"" itemize=""obj_name"" method=""table"">
 service-object object   {{ obj_name }}
 service-object          {{ obj_name }}
 </group>

 <group name=""service-object-ports*"">
 service-object {{ protocol | re(""SVC_PORTS"") }} destination eq {{port}}
 </group>
 
 <group name=""service-object-port-ranges*"">
 service-object {{ protocol | re(""SVC_PORTS"") }} destination range {{port_begin}} {{port_end}}
 </group>

 <group name=""service-port-objects"" itemize=""port_obj"">
 port-object eq {{ port_obj }}
 </group>
 
</group>
    " [(VStr $"
object-group service gokuhead
 service-object tcp-udp destination eq gokurpc 
 service-object tcp destination eq 902 
 service-object tcp destination eq https 
 service-object tcp destination eq nfs 
 service-object tcp destination eq 10025 
object-group network gohan
 network-object object gohan-01
 network-object object gohan-02
 network-object object vlan_944
 network-object object gohan-03
 network-object object gohan-05
 network-object object gohan-06
object-group service sql tcp
 port-object eq 1433
object-group network vegeta
 group-object trunks
 network-object object vegeta-01
object-group network Space-Users
 network-object object ab
 network-object object ac
 network-object object ad
 network-object object ae
 network-object object af
 network-object object ag
 network-object object ah
 network-object object ai
 network-object object aj
object-group network dalmatians
 network-object object dog-01
 group-object trunks
 network-object object vlan_950
 group-object Space-Users
 network-object object Darts-Summary            
    ", $"_all_")] $"list")) (VList [VList [VDict [(KS $"object-network-groups", VDict [(KS $"Space-Users", VDict [(KS $"network-objects", VList [VStr $"ab"; VStr $"ac"; VStr $"ad"; VStr $"ae"; VStr $"af"; VStr $"ag"; VStr $"ah"; VStr $"ai"; VStr $"aj"])]); (KS $"dalmatians", VDict [(KS $"group-objects", VList [VStr $"trunks"; VStr $"Space-Users"]); (KS $"network-objects", VList [VStr $"dog-01"; VStr $"vlan_950"; VStr $"Darts-Summary"])]); (KS $"gohan", VDict [(KS $"network-objects", VList [VStr $"gohan-01"; VStr $"gohan-02"; VStr $"vlan_944"; VStr $"gohan-03"; VStr $"gohan-05"; VStr $"gohan-06"])]); (KS $"vegeta", VDict [(KS $"group-objects", VList [VStr $"trunks"]); (KS $"network-objects", VList [VStr $"vegeta-01"])])]); (KS $"object-service-groups", VDict [(KS $"gokuhead", VDict [(KS $"service-object-ports", VList [VDict [(KS $"port", VStr $"gokurpc"); (KS $"protocol", VStr $"tcp-udp")]; VDict [(KS $"port", VStr $"902"); (KS $"protocol", VStr $"tcp")]; VDict [(KS $"port", VStr $"https"); (KS $"protocol", VStr $"tcp")]; VDict [(KS $"port", VStr $"nfs"); (KS $"protocol", VStr $"tcp")]; VDict [(KS $"port", VStr $"10025"); (KS $"protocol", VStr $"tcp")]])]); (KS $"sql", VDict [(KS $"protocol", VStr $"tcp"); (KS $"service-port-objects", VList [VStr $"1433"])])])]]]) = true.
Proof. vm_compute. reflexivity. Qed.

(** test/pytest/test_answers_and_docs.py test_issue_57_headers_parsing_using_columns *)
Example answers_and_docs_issue_57_headers_parsing_using_columns : is_ (at_ [] (ttp_result (fun _ => None) false sort_set ({| w_file := fun p => assoc p []; w_dir := fun p => assoc p []; w_tdir := None; w_exec := fun _ => out_of_model |}) $"" [] $"
<group name = ""interfaces"">
<group name=""routed"">
Brief information on interfaces in route mode: {{ _start_ }}
<group name = ""{{Interface}}"">
Interface            Link Protocol Primary_IP      Description {{ _headers_ | columns(5)}}
</group>
{{ _end_ }}
</group>

<group name=""bridged"">
Brief information on interfaces in bridge mode: {{ _start_ }}
<group name = ""{{Interface}}"">
Interface            Link Speed   Duplex Type PVID Description {{ _headers_ | columns(7) }}
</group>
{{ _end_ }}
</group>
</group>
    " [(VStr $"
Brief information on interfaces in route mode:
Link: ADM - administratively down; Stby - standby
Protocol: (s) - spoofing
Interface            Link Protocol Primary IP      Description                
InLoop0              UP   UP(s)    --                                         
REG0                 UP   --       --                                         
Vlan401              UP   UP       10.251.147.36       HSSBC_to_inband_mgmt_r4

Brief information on interfaces in bridge mode:
Link: ADM - administratively down; Stby - standby
Speed: (a) - auto
Duplex: (a)/A - auto; H - half; F - full
Type: A - access; T - trunk; H - hybrid
Interface            Link Speed   Duplex Type PVID Description                
BAGG1                UP   20G(a)  F(a)   T    1            to-KDC-R4.10-Core-1
BAGG14               UP   10G(a)  F(a)   T    1    KDC-R429-E1 BackUp Chassis 
BAGG22               UP   20G(a)  F(a)   T    1                    HSSBC-NS-01
FGE1/0/49            DOWN auto    A      A    1                               
XGE1/0/1             UP   10G(a)  F(a)   T    1    KDC-R402-E1 Backup Chassis 

    ", $"_all_")] $"list")) (VList [VList [VDict [(KS $"interfaces", VDict [(KS $"bridged", VDict [(KS $"BAGG1", VDict [(KS $"Description", VStr $"to-KDC-R4.10-Core-1"); (KS $"Duplex", VStr $"F(a)"); (KS $"Link", VStr $"UP"); (KS $"PVID", VStr $"1"); (KS $"Speed", VStr $"20G(a)"); (KS $"Type", VStr $"T")]); (KS $"BAGG14", VDict [(KS $"Description", VStr $"KDC-R429-E1 BackUp Chassis"); (KS $"Duplex", VStr $"F(a)"); (KS $"Link", VStr $"UP"); (KS $"PVID", VStr $"1"); (KS $"Speed", VStr $"10G(a)"); (KS $"Type", VStr $"T")]); (KS $"BAGG22", VDict [(KS $"Description", VStr $"HSSBC-NS-01"); (KS $"Duplex", VStr $"F(a)"); (KS $"Link", VStr $"UP"); (KS $"PVID", VStr $"1"); (KS $"Speed", VStr $"20G(a)"); (KS $"Type", VStr $"T")]); (KS $"FGE1/0/49", VDict [(KS $"Description", VStr $""); (KS $"Duplex", VStr $"A"); (KS $"Link", VStr $"DOWN"); (KS $"PVID", VStr $"1"); (KS $"Speed", VStr $"auto"); (KS $"Type", VStr $"A")]); (KS $"XGE1/0/1", VDict [(KS $"Description", VStr $"KDC-R402-E1 Backup Chassis"); (KS $"Duplex", VStr $"F(a)"); (KS $"Link", VStr $"UP"); (KS $"PVID", VStr $"1"); (KS $"Speed", VStr $"10G(a)"); (KS $"Type", VStr $"T")])]); (KS $"routed", VDict [(KS $"InLoop0", VDict [(KS $"Description", VStr $""); (KS $"Link", VStr $"UP"); (KS $"Primary_IP", VStr $"--"); (KS $"Protocol", VStr $"UP(s)")]); (KS $"REG0", VDict [(KS $"Description", VStr $""); (KS $"Link", VStr $"UP"); (KS $"Primary_IP", VStr $"--"); (KS $"Protocol", VStr $"--")]); (KS $"Vlan401", VDict [(KS $"Description", VStr $"HSSBC_to_inband_mgmt_r4"); (KS $"Link", VStr $"UP"); (KS $"Primary_IP", VStr $"10.251.147.36"); (KS $"Protocol", VStr $"UP")])])])]]]) = true.
Proof. vm_compute. reflexivity. Qed.

(** test/pytest/test_answers_and_docs.py test_fortigate_intf_parsing *)
Example answers_and_docs_fortigate_intf_parsing : is_ (at_ [] (ttp_result (fun _ => None) false sort_set ({| w_file := fun p => assoc p []; w_dir := fun p => assoc p []; w_tdir := None; w_exec := fun _ => out_of_model |}) $"" [] $"
<group name=""interfaces"">
config system interface {{ _start_ }}
    <group name=""/interfaces*"">
    edit ""{{ interface }}""
        set allowaccess {{ allowaccess }}
        set description ""{{ description }}""
        set interface ""{{ phy_interface }}""
        set snmp-index {{ snmp_index }}
        set type {{ fgt_int_type }}
        set vdom ""{{ vdom }}""
        set vlanid {{ vlan }}
    next {{ _end_ }}
    </group>
end {{ _end_ }}
</group>
    " [(VStr $"
config system np6
    edit ""np6_0""
    next
end
config system interface
    edit ""mgmt1""
        set vdom ""root""
        set ip 10.10.10.1 255.255.255.248
        set allowaccess ping
        set type physical
        set description ""mgmt1""
        set snmp-index 1
    next
    edit ""port1""
        set vdom ""internal""
        set ip 20.20.20.1 255.255.255.248
        set allowaccess ping
        set type physical
        set snmp-index 2
    next
end
config system custom-language
    edit ""en""
        set filename ""en""
    next
    edit ""fr""
        set filename ""fr""
    next
end    
    ", $"_all_")] $"list")) (VList [VList [VDict [(KS $"interfaces", VList [VDict [(KS $"allowaccess", VStr $"ping"); (KS $"description", VStr $"mgmt1"); (KS $"fgt_int_type", VStr $"physical"); (KS $"interface", VStr $"mgmt1"); (KS $"snmp_index", VStr $"1"); (KS $"vdom", VStr $"root")]; VDict [(KS $"allowaccess", VStr $"ping"); (KS $"fgt_int_type", VStr $"physical"); (KS $"interface", VStr $"port1"); (KS $"snmp_index", VStr $"2"); (KS $"vdom", VStr $"internal")]])]]]) = true.
Proof. vm_compute. reflexivity. Qed.

(** test/pytest/test_answers_and_docs.py test_issue_57_one_more_answer *)
Example answers_and_docs_issue_57_one_more_answer : is_ (at_ [] (ttp_result (fun _ => None) false sort_set ({| w_file := fun p => assoc p []; w_dir := fun p => assoc p []; w_tdir := None; w_exec := fun _ => out_of_model |}) $"" [] $"
<group name = ""portchannel.{{channel_number}}"">
Aggregate Interface: Bridge-Aggregation{{ channel_number}}

<group name = ""local_members*"">
  {{interface}} {{status}} {{priority | DIGIT}} {{oper_key | DIGIT}} {{flag}}
</group>

<group name = ""remote_members*"">
  {{interface}} {{status}} {{priority | DIGIT}} {{oper_key | DIGIT}} {{sys_id}}, {{ mac | MAC }} {{flag}}
</group>

</group>
    " [(VStr $"
Loadsharing Type: Shar -- Loadsharing, NonS -- Non-Loadsharing
Port Status: S -- Selected, U -- Unselected,
             I -- Individual, * -- Management port
Flags:  A -- LACP_Activity, B -- LACP_Timeout, C -- Aggregation,
        D -- Synchronization, E -- Collecting, F -- Distributing,
        G -- Defaulted, H -- Expired

Aggregate Interface: Bridge-Aggregation1
Aggregation Mode: Dynamic
Loadsharing Type: Shar
Management VLAN : None
System ID: 0x8000, d07e-28b5-a200
Local:
  Port             Status  Priority Oper-Key  Flag
--------------------------------------------------------------------------------
  GE6/0/1          U       32768    1         {ACG}
  GE6/0/2          U       32768    1         {ACG}
Remote:
  Actor            Partner Priority Oper-Key  SystemID               Flag
--------------------------------------------------------------------------------
  GE6/0/1          0       32768    0         0x8000, 0000-0000-0000 {EF}
  GE6/0/2          0       32768    0         0x8000, 0000-0000-0000 {EF}

Aggregate Interface: Bridge-Aggregation2
Aggregation Mode: Dynamic
Loadsharing Type: Shar
Management VLAN : None
System ID: 0x8000, d07e-28b5-a200
Local:
  Port             Status  Priority Oper-Key  Flag
--------------------------------------------------------------------------------
  GE6/0/3          U       32768    2         {ACG}
  GE6/0/4          U       32768    2         {ACG}
Remote:
  Actor            Partner Priority Oper-Key  SystemID               Flag
--------------------------------------------------------------------------------
  GE6/0/3          0       32768    0         0x8000, 0000-0000-0000 {EF}
  GE6/0/4          0       32768    0         0x8000, 0000-0000-0000 {EF}
    ", $"_all_")] $"list")) (VList [VList [VDict [(KS $"portchannel", VDict [(KS $"1", VDict [(KS $"local_members", VList [VDict [(KS $"flag", VStr $"{ACG}"); (KS $"interface", VStr $"GE6/0/1"); (KS $"oper_key", VStr $"1"); (KS $"priority", VStr $"32768"); (KS $"status", VStr $"U")]; VDict [(KS $"flag", VStr $"{ACG}"); (KS $"interface", VStr $"GE6/0/2"); (KS $"oper_key", VStr $"1"); (KS $"priority", VStr $"32768"); (KS $"status", VStr $"U")]]); (KS $"remote_members", VList [VDict [(KS $"flag", VStr $"{EF}"); (KS $"interface", VStr $"GE6/0/1"); (KS $"mac", VStr $"0000-0000-0000"); (KS $"oper_key", VStr $"0"); (KS $"priority", VStr $"32768"); (KS $"status", VStr $"0"); (KS $"sys_id", VStr $"0x8000")]; VDict [(KS $"flag", VStr $"{EF}"); (KS $"interface", VStr $"GE6/0/2"); (KS $"mac", VStr $"0000-0000-0000"); (KS $"oper_key", VStr $"0"); (KS $"priority", VStr $"32768"); (KS $"status", VStr $"0"); (KS $"sys_id", VStr $"0x8000")]])]); (KS $"2", VDict [(KS $"local_members", VList [VDict [(KS $"flag", VStr $"{ACG}"); (KS $"interface", VStr $"GE6/0/3"); (KS $"oper_key", VStr $"2"); (KS $"priority", VStr $"32768"); (KS $"status", VStr $"U")]; VDict [(KS $"flag", VStr $"{ACG}"); (KS $"interface", VStr $"GE6/0/4"); (KS $"oper_key", VStr $"2"); (KS $"priority", VStr $"32768"); (KS $"status", VStr $"U")]]); (KS $"remote_members", VList [VDict [(KS $"flag", VStr $"{EF}"); (KS $"interface", VStr $"GE6/0/3"); (KS $"mac", VStr $"0000-0000-0000"); (KS $"oper_key", VStr $"0"); (KS $"priority", VStr $"32768"); (KS $"status", VStr $"0"); (KS $"sys_id", VStr $"0x8000")]; VDict [(KS $"flag", VStr $"{EF}"); (KS $"interface", VStr $"GE6/0/4"); (KS $"mac", VStr $"0000-0000-0000"); (KS $"oper_key", VStr $"0"); (KS $"priority", VStr $"32768"); (KS $"status", VStr $"0"); (KS $"sys_id", VStr $"0x8000")]])])])]]]) = true.
Proof. vm_compute. reflexivity. Qed.

(** test/pytest/test_answers_and_docs.py test_issue_62 *)
Example answers_and_docs_issue_62 : is_ (at_ [] (ttp_result (fun _ => None) false sort_set ({| w_file := fun p => assoc p []; w_dir := fun p => assoc p []; w_tdir := None; w_exec := fun _ => out_of_model |}) $"" [] $"
<group name = '{{ nameif }}'>
{{ nameif | ORPHRASE }}:
{{ ignore(r'\s+') }}received{{ ignore('.*') }}
{{ ignore(r'\s+') }}{{ rpps | DIGIT }} pkts/sec{{ ignore('.*') }}
{{ ignore(r'\s+') }}trasmitted{{ ignore('.*') }}
{{ ignore(r'\s+') }}{{ tpps | DIGIT }} pkts/sec{{ ignore('.*') }}
</group>
    " [(VStr $"
security:
    received (in 351815.564 secs):
        220203204 packets    14522703007 bytes
        3 pkts/sec    41010 bytes/sec
    transmitted (in 351815 secs):
        0 packets    0 bytes
        0 pkts/sec    0 bytes/sec
    ", $"_all_")] $"list")) (VList [VList [VDict [(KS $"security", VDict [(KS $"rpps", VStr $"3")])]]]) = true.
Proof. vm_compute. reflexivity. Qed.

(** test/pytest/test_answers_and_docs.py test_answer_hpe_bgp *)
Example answers_and_docs_answer_hpe_bgp : is_ (at_ [] (ttp_result (fun _ => None) false sort_set ({| w_file := fun p => assoc p []; w_dir := fun p => assoc p []; w_tdir := None; w_exec := fun _ => out_of_model |}) $"" [] $"
<group name= ""bgp_af.{{vpn_instance}}.{{address_family}}"">
 {{address_family}}-family vpn-instance {{vpn_instance}}
  router-id {{router_id}}
  preference {{pref_internal}} {{pref_external}} {{pref_local}}

 <group name= ""bgp_peer.{{peer_id}}**"" method=""table"">
  peer {{peer_id}} as-number {{peer_as_number}}
  peer {{peer_id}} group {{peer_group_id }}
  peer {{peer_id}} label_route_capability {{label_router_capability | re(""label-route-capability"")}}
  peer {{peer_id}} {{bfd | re(""bfd"") | let(""enabled"") }}
  peer {{peer_id}} route-policy {{peer_import_policy}} import
  peer {{peer_id}} route-policy {{peer_export_policy}} export
  peer {{peer_id}} ebgp-max-hop {{ebgp_max_hop}}
  peer {{peer_id}} timer keepalive {{timet_keepalive}} hold {{timer_hold}}
  peer {{peer_id}} route-update-interval {{timer_route_update}}
  peer {{peer_id}} connect-interface {{source_interface}}
  peer {{peer_id}} fake-as {{local_as}}
 </group>

<group name=""aggregate"">
  aggregate {{network}} {{mask}} {{detail_suppressed }} attribute-policy {{attribute_policy}}
</group>
  
<group name=""networks"">
  network {{network}} {{mask}} route-policy {{route_policy}}
</group>  

</group>
    " [(VStr $"
 ipv4-family vpn-instance FHA
  router-id 10.251.0.15
  peer 10.251.64.113 as-number 64991
  peer 10.251.64.97 as-number 64991
  aggregate 10.251.64.0 255.255.248.0 detail-suppressed attribute-policy IGP_into_FHA
  aggregate 10.251.160.0 255.255.248.0 detail-suppressed attribute-policy IGP_into_FHA
  preference 75 80 90
  network 10.248.128.0 255.255.255.0 route-policy IGP_into_FHA
  network 10.248.137.160 255.255.255.224 route-policy IGP_into_FHA
  peer 10.251.64.97 route-policy fhadmz_to_fha import
  peer 10.251.64.97 ebgp-max-hop 5
  peer 10.251.64.97 timer keepalive 1 hold 5
  peer 10.251.64.97 route-update-interval 1
  peer 10.251.64.97 connect-interface LoopBack101
  peer 10.251.64.97 fake-as 64881
  peer 10.251.64.113 route-policy fha_to_fhaimz export
  peer 10.251.64.113 route-policy fhaimz_to_fha import
  peer 10.251.64.113 ebgp-max-hop 5
  peer 10.251.64.113 timer keepalive 1 hold 5
  peer 10.251.64.113 route-update-interval 1
  peer 10.251.64.113 connect-interface LoopBack101
  peer 10.251.64.113 fake-as 64881
    ", $"_all_")] $"list")) (VList [VList [VDict [(KS $"bgp_af", VDict [(KS $"FHA", VDict [(KS $"ipv4", VDict [(KS $"aggregate", VList [VDict [(KS $"attribute_policy", VStr $"IGP_into_FHA"); (KS $"detail_suppressed", VStr $"detail-suppressed"); (KS $"mask", VStr $"255.255.248.0"); (KS $"network", VStr $"10.251.64.0")]; VDict [(KS $"attribute_policy", VStr $"IGP_into_FHA"); (KS $"detail_suppressed", VStr $"detail-suppressed"); (KS $"mask", VStr $"255.255.248.0"); (KS $"network", VStr $"10.251.160.0")]]); (KS $"bgp_peer", VDict [(KS $"10.251.64.113", VDict [(KS $"ebgp_max_hop", VStr $"5"); (KS $"local_as", VStr $"64881"); (KS $"peer_as_number", VStr $"64991"); (KS $"peer_export_policy", VStr $"fha_to_fhaimz"); (KS $"peer_import_policy", VStr $"fhaimz_to_fha"); (KS $"source_interface", VStr $"LoopBack101"); (KS $"timer_hold", VStr $"5"); (KS $"timer_route_update", VStr $"1"); (KS $"timet_keepalive", VStr $"1")]); (KS $"10.251.64.97", VDict [(KS $"ebgp_max_hop", VStr $"5"); (KS $"local_as", VStr $"64881"); (KS $"peer_as_number", VStr $"64991"); (KS $"peer_import_policy", VStr $"fhadmz_to_fha"); (KS $"source_interface", VStr $"LoopBack101"); (KS $"timer_hold", VStr $"5"); (KS $"timer_route_update", VStr $"1"); (KS $"timet_keepalive", VStr $"1")])]); (KS $"networks", VList [VDict [(KS $"mask", VStr $"255.255.255.0"); (KS $"network", VStr $"10.248.128.0"); (KS $"route_policy", VStr $"IGP_into_FHA")]; VDict [(KS $"mask", VStr $"255.255.255.224"); (KS $"network", VStr $"10.248.137.160"); (KS $"route_policy", VStr $"IGP_into_FHA")]]); (KS $"pref_external", VStr $"80"); (KS $"pref_internal", VStr $"75"); (KS $"pref_local", VStr $"90"); (KS $"router_id", VStr $"10.251.0.15")])])])]]]) = true.
Proof. vm_compute. reflexivity. Qed.

(** test/pytest/test_answers_and_docs.py test_same_config_different_contexts *)
Example answers_and_docs_same_config_different_contexts : is_ (at_ [] (ttp_result (fun _ => None) false sort_set ({| w_file := fun p => assoc p []; w_dir := fun p => assoc p []; w_tdir := None; w_exec := fun _ => out_of_model |}) $"" [] $"
<group name=""vrfs*.{{ vrf_name }}**"">
vrf context {{ vrf_name | ORPHRASE | _start_ }}
  ip name-server {{ name_servers | to_list | joinmatches}}
    
<group name=""another_contexts"" void="""">
foo {{ _start_ }}
biz {{ _start_ }}
bar {{ _start_ }}
  ip name-server {{ name_servers | to_list | joinmatches}}
</group>

</group>
    " [(VStr $"
bar
  ip name-server 3.3.3.1
  ip name-server 6.6.6.2
vrf context management
  foo bar
  ip name-server 2.2.2.2
  ip name-server 4.4.4.4
  ip name-server 5.5.5.5
  ip route 0.0.0.0/0 2.3.4.5
foo
  ip name-server 3.3.3.3
  ip name-server 6.6.6.6
biz
  ip name-server 3.3.3.4
  ip name-server 6.6.6.7
vrf context main_vrf
  ip name-server 1.2.3.4
  ip route 0.0.0.0/0 4.5.6.7
bar
  ip name-server 3.3.3.1
  ip name-server 6.6.6.2
    ", $"_all_")] $"list")) (VList [VList [VDict [(KS $"vrfs", VList [VDict [(KS $"main_vrf", VDict [(KS $"name_servers", VList [VStr $"1.2.3.4"])]); (KS $"management", VDict [(KS $"name_servers", VList [VStr $"2.2.2.2"; VStr $"4.4.4.4"; VStr $"5.5.5.5"])])]])]]]) = true.
Proof. vm_compute. reflexivity. Qed.

(** test/pytest/test_answers_and_docs.py test_issue_77 *)
Example answers_and_docs_issue_77 : is_ (at_ [] (ttp_result (fun _ => None) false sort_set ({| w_file := fun p => assoc p []; w_dir := fun p => assoc p []; w_tdir := None; w_exec := fun _ => out_of_model |}) $"" [] $"
<group name=""lsp**.{{ lspname }}**"">
lsp ""{{ lspname | _start_ }}""
    <group name=""primary**.{{ primaryname }}**"">
    primary ""{{ primaryname | _start_ }}""
        <group name=""include**.{{ item }}**"">
        include ""{{ item | _start_ }}""
        </group>
        <group name=""exclude**.{{ item }}**"">
        exclude ""{{ item | _start_ }}""
        </group>
    exit{{ _end_ }}
    </group>
    <group name=""secondary**.{{ secondaryname }}**"">
    secondary ""{{ secondaryname | _start_ }}""
        <group name=""include**.{{ item }}**"">
        include ""{{ item | _start_ }}""
        </group>
        <group name=""exclude**.{{ item }}**"">
        exclude ""{{ item | _start_ }}""
        </group>
    exit{{ _end_ }}
    </group>
exit{{ _end_ }}
</group>
    " [(VStr $"
lsp ""lsp100""
    primary ""name""
        include ""1""
        exclude ""2""
    exit
    secondary ""name""
        include ""3""
        exclude ""4""
    exit
exit
lsp ""lsp101""
    primary ""name""
        include ""5""
        exclude ""6""
    exit
    secondary ""name""
        include ""7""
        exclude ""8""
    exit
exit    
    ", $"_all_")] $"list")) (VList [VList [VDict [(KS $"lsp", VDict [(KS $"lsp100", VDict [(KS $"primary", VDict [(KS $"name", VDict [(KS $"exclude", VDict [(KS $"2", VDict [])]); (KS $"include", VDict [(KS $"1", VDict [])])])]); (KS $"secondary", VDict [(KS $"name", VDict [(KS $"exclude", VDict [(KS $"4", VDict [])]); (KS $"include", VDict [(KS $"3", VDict [])])])])]); (KS $"lsp101", VDict [(KS $"primary", VDict [(KS $"name", VDict [(KS $"exclude", VDict [(KS $"6", VDict [])]); (KS $"include", VDict [(KS $"5", VDict [])])])]); (KS $"secondary", VDict [(KS $"name", VDict [(KS $"exclude", VDict [(KS $"8", VDict [])]); (KS $"include", VDict [(KS $"7", VDict [])])])])])])]]]) = true.
Proof. vm_compute. reflexivity. Qed.

(** test/pytest/test_answers_and_docs.py test_issue_94_1 *)
Example answers_and_docs_issue_94_1 : is_ (at_ [] (ttp_result (fun _ => None) false sort_set ({| w_file := fun p => assoc p []; w_dir := fun p => assoc p []; w_tdir := None; w_exec := fun _ => out_of_model |}) $"" [] $"
<group name=""routing.isis.LAB"" default=""MISSING"">
router isis LAB {{ _start_ |  _exact_ }}
 
 <group name=""fa128"" default=""MISSING"">
 flex-algo 128 {{ _start_ |  _exact_ }}
  priority {{ priority | equal('999') }}
  metric-type {{ metric_type | equal('delay') }}
  advertise-definition {{ advertise_definition | set('true') }}
  prefix-metric {{ prefix_metric | set('true') }}
  {{ LEFTOVER | _line_  | joinmatches }}
 !{{ _end_ }}
 </group>
 
 <group name=""LEFTOVER"">
 {{ LEFTOVER | _line_ | joinmatches }}
 </group>

!{{ _end_ }}
</group>    
    " [(VStr $"
router isis LAB
 flex-algo 128
  priority 100
  metric-type delay
  advertise-definition
  prefix-metric
 !
 address-family ipv4 unicast
  metric-style wide
  advertise passive-only
  mpls traffic-eng level-2-only
 !
 interface Loopback0
  passive
!
    ", $"_all_")] $"list")) (VList [VList [VDict [(KS $"routing", VDict [(KS $"isis", VDict [(KS $"LAB", VDict [(KS $"LEFTOVER", VList [VDict [(KS $"LEFTOVER", VStr $"address-family ipv4 unicast")]; VDict [(KS $"LEFTOVER", VStr $" metric-style wide")]; VDict [(KS $"LEFTOVER", VStr $" advertise passive-only")]; VDict [(KS $"LEFTOVER", VStr $" mpls traffic-eng level-2-only")]; VDict [(KS $"LEFTOVER", VStr $"interface Loopback0")]; VDict [(KS $"LEFTOVER", VStr $" passive")]]); (KS $"fa128", VDict [(KS $"LEFTOVER", VStr $"priority 100"); (KS $"advertise_definition", VStr $"true"); (KS $"metric_type", VStr $"delay"); (KS $"prefix_metric", VStr $"true"); (KS $"priority", VStr $"MISSING")])])])])]]]) = true.
Proof. vm_compute. reflexivity. Qed.

(** test/pytest/test_extend_tag.py test_extend_tag_from_file *)
Example extend_tag_extend_tag_from_file : is_ (at_ [] (ttp_result (fun _ => None) false sort_set ({| w_file := fun p => assoc p [($"./assets/extend_vlan.txt", $"<group name=""vlans.{{ vlan }}"">
vlan {{ vlan }}
 name {{ name }}
</group>"); ($"././assets/extend_vlan.txt", $"<group name=""vlans.{{ vlan }}"">
vlan {{ vlan }}
 name {{ name }}
</group>"); ($".//assets/extend_vlan.txt", $"<group name=""vlans.{{ vlan }}"">
vlan {{ vlan }}
 name {{ name }}
</group>")]; w_dir := fun p => assoc p []; w_tdir := None; w_exec := fun _ => out_of_model |}) $"" [] $"
<extend template=""./assets/extend_vlan.txt""/>
    " [(VStr $"
vlan 1234
 name some_vlan
!
vlan 910
 name one_more
!
    ", $"_all_")] $"list")) (VList [VList [VDict [(KS $"vlans", VDict [(KS $"1234", VDict [(KS $"name", VStr $"some_vlan")]); (KS $"910", VDict [(KS $"name", VStr $"one_more")])])]]]) = true.
Proof. vm_compute. reflexivity. Qed.

(** test/pytest/test_extend_tag.py test_extend_tag_from_file_with_template_tag *)
Example extend_tag_extend_tag_from_file_with_template_tag : is_ (at_ [] (ttp_result (fun _ => None) false sort_set ({| w_file := fun p => assoc p [($"./assets/extend_vlan_with_template_tag.txt", $"<template>
<group name=""vlans.{{ vlan }}"">
vlan {{ vlan }}
 name {{ name }}
</group>
</template>"); ($"././assets/extend_vlan_with_template_tag.txt", $"<template>
<group name=""vlans.{{ vlan }}"">
vlan {{ vlan }}
 name {{ name }}
</group>
</template>"); ($".//assets/extend_vlan_with_template_tag.txt", $"<template>
<group name=""vlans.{{ vlan }}"">
vlan {{ vlan }}
 name {{ name }}
</group>
</template>")]; w_dir := fun p => assoc p []; w_tdir := None; w_exec := fun _ => out_of_model |}) $"" [] $"
<extend template=""./assets/extend_vlan_with_template_tag.txt""/>
    " [(VStr $"
vlan 1234
 name some_vlan
!
vlan 910
 name one_more
!
    ", $"_all_")] $"list")) (VList [VList [VDict [(KS $"vlans", VDict [(KS $"1234", VDict [(KS $"name", VStr $"some_vlan")]); (KS $"910", VDict [(KS $"name", VStr $"one_more")])])]]]) = true.
Proof. vm_compute. reflexivity. Qed.

(** test/pytest/test_extend_tag.py test_extend_tag_within_group_with_child_groups_above *)
Example extend_tag_extend_tag_within_group_with_child_groups_above : is_ (at_ [] (ttp_result (fun _ => None) false sort_set ({| w_file := fun p => assoc p [($".//assets/test_extend_tag_within_group.txt", $"<group name=""config"">
 router-id {{ rid }}
</group>"); ($"./assets/test_extend_tag_within_group.txt", $"<group name=""config"">
 router-id {{ rid }}
</group>"); ($"././assets/test_extend_tag_within_group.txt", $"<group name=""config"">
 router-id {{ rid }}
</group>")]; w_dir := fun p => assoc p []; w_tdir := None; w_exec := fun _ => out_of_model |}) $"" [] $"
<input load=""text"">
router bgp 65100
 router-id 1.1.1.1
 neighbor 2.2.2.2 remote-as 65000
</input>

<group name=""bgp_config"">
router bgp {{ bgp_as }}

<group name=""peers"">
 neighbor {{ peer }} remote-as {{ asn }}
</group>

<extend template=""./assets/test_extend_tag_within_group.txt""/>

</group> 
    " [] $"list")) (VList [VList [VDict [(KS $"bgp_config", VDict [(KS $"bgp_as", VStr $"65100"); (KS $"config", VDict [(KS $"rid", VStr $"1.1.1.1")]); (KS $"peers", VDict [(KS $"asn", VStr $"65000"); (KS $"peer", VStr $"2.2.2.2")])])]]]) = true.
Proof. vm_compute. reflexivity. Qed.

(** test/pytest/test_extend_tag.py test_extend_tag_within_group_with_anonymous_group *)
Example extend_tag_extend_tag_within_group_with_anonymous_group : is_ (at_ [] (ttp_result (fun _ => None) false sort_set ({| w_file := fun p => assoc p [($".//assets/test_extend_tag_within_group_with_anonymous_group.txt", $"<group>
 router-id {{ rid }}
</group>"); ($"./assets/test_extend_tag_within_group_with_anonymous_group.txt", $"<group>
 router-id {{ rid }}
</group>"); ($"././assets/test_extend_tag_within_group_with_anonymous_group.txt", $"<group>
 router-id {{ rid }}
</group>")]; w_dir := fun p => assoc p []; w_tdir := None; w_exec := fun _ => out_of_model |}) $"" [] $"
<input load=""text"">
router bgp 65100
 router-id 1.1.1.1
 neighbor 2.2.2.2 remote-as 65000
</input>

<group name=""bgp_config"">
router bgp {{ bgp_as }}

<group name=""config"">
<extend template=""./assets/test_extend_tag_within_group_with_anonymous_group.txt""/>
</group>

<group name=""peers"">
 neighbor {{ peer }} remote-as {{ asn }}
</group>

</group> 
    " [] $"list")) (VList [VList [VDict [(KS $"bgp_config", VDict [(KS $"bgp_as", VStr $"65100"); (KS $"config", VDict [(KS $"rid", VStr $"1.1.1.1")]); (KS $"peers", VDict [(KS $"asn", VStr $"65000"); (KS $"peer", VStr $"2.2.2.2")])])]]]) = true.
Proof. vm_compute. reflexivity. Qed.

(** test/pytest/test_extend_tag.py test_extend_tag_from_file_group_name_filter *)
Example extend_tag_extend_tag_from_file_group_name_filter : is_ (at_ [] (ttp_result (fun _ => None) false sort_set ({| w_file := fun p => assoc p [($"./assets/extend_groups_filter_test.txt", $"<group name=""vlans_2.{{ vlan }}"">
vlan {{ vlan_2 }}
 name {{ name_2 }}
</group>

<group name=""vlans.{{ vlan }}"">
vlan {{ vlan }}
 name {{ name }}
</group>"); ($"././assets/extend_groups_filter_test.txt", $"<group name=""vlans_2.{{ vlan }}"">
vlan {{ vlan_2 }}
 name {{ name_2 }}
</group>

<group name=""vlans.{{ vlan }}"">
vlan {{ vlan }}
 name {{ name }}
</group>"); ($".//assets/extend_groups_filter_test.txt", $"<group name=""vlans_2.{{ vlan }}"">
vlan {{ vlan_2 }}
 name {{ name_2 }}
</group>

<group name=""vlans.{{ vlan }}"">
vlan {{ vlan }}
 name {{ name }}
</group>")]; w_dir := fun p => assoc p []; w_tdir := None; w_exec := fun _ => out_of_model |}) $"" [] $"
<extend template=""./assets/extend_groups_filter_test.txt"" groups=""vlans.{{ vlan }}""/>
    " [(VStr $"
vlan 1234
 name some_vlan
!
vlan 910
 name one_more
!
    ", $"_all_")] $"list")) (VList [VList [VDict [(KS $"vlans", VDict [(KS $"1234", VDict [(KS $"name", VStr $"some_vlan")]); (KS $"910", VDict [(KS $"name", VStr $"one_more")])])]]]) = true.
Proof. vm_compute. reflexivity. Qed.

(** test/pytest/test_extend_tag.py test_extend_tag_from_file_vars_filter *)
Example extend_tag_extend_tag_from_file_vars_filter : is_ (at_ [] (ttp_result (fun _ => None) false sort_set ({| w_file := fun p => assoc p [($"./assets/extend_test_vars_filter.txt", $"<vars name=""common_vars"">
c = 3
d = 4
</vars>

<vars name=""other_vars"">
e = 5
f = 6
</vars>

<vars name=""more_vars"">
g = 7
</vars>

<vars>
r = 8
</vars>"); ($"././assets/extend_test_vars_filter.txt", $"<vars name=""common_vars"">
c = 3
d = 4
</vars>

<vars name=""other_vars"">
e = 5
f = 6
</vars>

<vars name=""more_vars"">
g = 7
</vars>

<vars>
r = 8
</vars>"); ($".//assets/extend_test_vars_filter.txt", $"<vars name=""common_vars"">
c = 3
d = 4
</vars>

<vars name=""other_vars"">
e = 5
f = 6
</vars>

<vars name=""more_vars"">
g = 7
</vars>

<vars>
r = 8
</vars>")]; w_dir := fun p => assoc p []; w_tdir := None; w_exec := fun _ => out_of_model |}) $"" [] $"
<vars name=""some"">
a = 1
b = 2
</vars>

<extend template=""./assets/extend_test_vars_filter.txt"" vars=""common_vars, other_vars""/>

<group name=""vlans.{{ vlan }}"">
vlan {{ vlan }}
 name {{ name }}
 {{ r_test | set(r) }}
</group>
    " [(VStr $"
vlan 1234
 name some_vlan
!
vlan 910
 name one_more
!
    ", $"_all_")] $"list")) (VList [VList [VDict [(KS $"common_vars", VDict [(KS $"c", VInt (3)); (KS $"d", VInt (4))]); (KS $"other_vars", VDict [(KS $"e", VInt (5)); (KS $"f", VInt (6))]); (KS $"some", VDict [(KS $"a", VInt (1)); (KS $"b", VInt (2))]); (KS $"vlans", VDict [(KS $"1234", VDict [(KS $"name", VStr $"some_vlan"); (KS $"r_test", VStr $"r")]); (KS $"910", VDict [(KS $"name", VStr $"one_more"); (KS $"r_test", VStr $"r")])])]]]) = true.
Proof. vm_compute. reflexivity. Qed.

(** test/pytest/test_extend_tag.py test_extend_tag_from_file_output_filter *)
Example extend_tag_extend_tag_from_file_output_filter : is_ (at_ [] (ttp_result (fun _ => None) false sort_set ({| w_file := fun p => assoc p [($"./assets/extend_test_output_filter.txt", $"<output name=""to_csv"" format=""csv""/>"); ($"././assets/extend_test_output_filter.txt", $"<output name=""to_csv"" format=""csv""/>"); ($".//assets/extend_test_output_filter.txt", $"<output name=""to_csv"" format=""csv""/>")]; w_dir := fun p => assoc p []; w_tdir := None; w_exec := fun _ => out_of_model |}) $"" [] $"
<extend template=""./assets/extend_test_output_filter.txt"" outputs=""to_csv""/>

<group>
vlan {{ vlan }}
 name {{ name }}
</group>
    " [(VStr $"
vlan 1234
 name some_vlan
!
vlan 910
 name one_more
!
    ", $"_all_")] $"list")) (VList [VStr $"""name"",""vlan""
""some_vlan"",""1234""
""one_more"",""910"""]) = true.
Proof. vm_compute. reflexivity. Qed.

(** test/pytest/test_group_chain_attribute.py test_group_chain_attribute_list *)
Example group_chain_attribute_group_chain_attribute_list : is_ (at_ [] (ttp_result (fun _ => None) false sort_set ({| w_file := fun p => assoc p []; w_dir := fun p => assoc p []; w_tdir := None; w_exec := fun _ => out_of_model |}) $"" [] $"
<input load=""text"">
interface Port-Chanel11
  vlan 10
interface Loopback0
  vlan 20
  description test loopback0
interface Loopback1
  vlan 30
  description test loopback1
</input>

<vars>
chain1 = [
""del(vlan)"",
""contains_val(interface, 'Loop')""
]
</vars>

<group chain=""chain1"">
interface {{ interface }}
  vlan {{ vlan | to_int }}
  description {{ description | ORPHRASE }}
</group>
" [] $"list")) (VList [VList [VList [VDict [(KS $"description", VStr $"test loopback0"); (KS $"interface", VStr $"Loopback0")]; VDict [(KS $"description", VStr $"test loopback1"); (KS $"interface", VStr $"Loopback1")]]]]) = true.
Proof. vm_compute. reflexivity. Qed.

(** test/pytest/test_group_functions.py test_group_default_referencing_variable_parent_group_no_re_one_input *)
Example group_functions_group_default_referencing_variable_parent_group_no_re_one_input : is_ (at_ [] (ttp_result (fun _ => None) false sort_set ({| w_file := fun p => assoc p []; w_dir := fun p => assoc p []; w_tdir := None; w_exec := fun _ => out_of_model |}) $"" [] $"
<input load=""text"">
Hi World
</input>

<vars>
var_name = {""audiences"": []}
</vars>

<group name='demo' default=""var_name"">
<group name='audiences*'>
Hello {{ audience }}
</group>
</group>
" [] $"list")) (VList [VList [VDict [(KS $"demo", VDict [(KS $"audiences", VList [])])]]]) = true.
Proof. vm_compute. reflexivity. Qed.

(** test/pytest/test_group_functions.py test_group_default *)
Example group_functions_group_default : is_ (at_ [] (ttp_result (fun _ => None) false sort_set ({| w_file := fun p => assoc p []; w_dir := fun p => assoc p []; w_tdir := None; w_exec := fun _ => out_of_model |}) $"" [] $"
<input load=""text"">
device-hostame uptime is 27 weeks, 3 days, 10 hours, 46 minutes, 10 seconds
</input>

<group name=""uptime**"">
device-hostame uptime is {{ uptime | PHRASE }}
<group name=""software"">
 software version {{ version | default(""uncknown"") }}
</group>
</group>

<group name=""domain"" default=""Uncknown"">
Default domain is {{ fqdn }}
</group>
    " [] $"list")) (VList [VList [VDict [(KS $"domain", VDict [(KS $"fqdn", VStr $"Uncknown")]); (KS $"uptime", VDict [(KS $"software", VDict [(KS $"version", VStr $"uncknown")]); (KS $"uptime", VStr $"27 weeks, 3 days, 10 hours, 46 minutes, 10 seconds")])]]]) = true.
Proof. vm_compute. reflexivity. Qed.

(** test/pytest/test_group_functions.py test_group_set_function_source_from_global_vars *)
Example group_functions_group_set_function_source_from_global_vars : is_ (at_ [] (ttp_result (fun _ => None) false sort_set ({| w_file := fun p => assoc p []; w_dir := fun p => assoc p []; w_tdir := None; w_exec := fun _ => out_of_model |}) $"" [] $"
<input name=""cfg"" load=""text"">
hostname router_1
</input>

<input name=""intf"" load=""text"">
interface Lo0
 ip address 1.1.1.1 255.255.255.255
!
interface Lo0
 ip address 1.1.1.2 255.255.255.255
</input>

<group input=""cfg"" record=""hostname"">
hostname {{ hostname }}
</group>

<group name=""interfaces"" set=""hostname"" input=""intf"">
interface {{ interface }}
 ip address {{ IP }} {{ MASK }}
</group>
" [] $"list")) (VList [VList [VList [VDict [(KS $"hostname", VStr $"router_1")]]; VDict [(KS $"interfaces", VList [VDict [(KS $"IP", VStr $"1.1.1.1"); (KS $"MASK", VStr $"255.255.255.255"); (KS $"hostname", VStr $"router_1"); (KS $"interface", VStr $"Lo0")]; VDict [(KS $"IP", VStr $"1.1.1.2"); (KS $"MASK", VStr $"255.255.255.255"); (KS $"hostname", VStr $"router_1"); (KS $"interface", VStr $"Lo0")]])]]]) = true.
Proof. vm_compute. reflexivity. Qed.

(** test/pytest/test_group_functions.py test_itemize_dynamic_path *)
Example group_functions_itemize_dynamic_path : is_ (at_ [] (ttp_result (fun _ => None) false sort_set ({| w_file := fun p => assoc p []; w_dir := fun p => assoc p []; w_tdir := None; w_exec := fun _ => out_of_model |}) $"" [] $"
<input load=""text"">
interface Loopback0
 ip address 2002:fd37::91/124
!
interface Vlan779
!
interface Loopback1
 switchport port-security mac 4
 ip address 192.168.1.1/124
!
interface Vlan790
 switchport port-security mac 4
 ip address 192.168.190.1/124
!
</input>

<group name=""l3_interfaces_list.{{ intf_type }}"" itemize=""interface"">
interface {{ interface | contains(""Vlan"") | let(""intf_type"", ""vlans"") }}
 ip address {{ ip }}
</group>

<group name=""l3_interfaces_list.{{ intf_type }}"" itemize=""interface"">
interface {{ interface | contains(""Loop"") | let(""intf_type"", ""loopbacks"") }}
 ip address {{ ip }}
</group>
" [] $"list")) (VList [VList [VDict [(KS $"l3_interfaces_list", VDict [(KS $"loopbacks", VList [VStr $"Loopback0"; VStr $"Loopback1"]); (KS $"vlans", VList [VStr $"Vlan779"; VStr $"Vlan790"])])]]]) = true.
Proof. vm_compute. reflexivity. Qed.

(** test/pytest/test_group_functions.py test_items2dict_function *)
Example group_functions_items2dict_function : is_ (at_ [] (ttp_result (fun _ => None) false sort_set ({| w_file := fun p => assoc p []; w_dir := fun p => assoc p []; w_tdir := None; w_exec := fun _ => out_of_model |}) $"" [] $"
<input load=""text"">
vlan 123
 name SERVERS
!
vlan 456
 name WORKSTATIONS
</input>

<group name=""vlans*"" items2dict=""vlan, name"">
vlan {{ vlan }}
 name {{ name }}
</group>
" [] $"list")) (VList [VList [VDict [(KS $"vlans", VList [VDict [(KS $"123", VStr $"SERVERS")]; VDict [(KS $"456", VStr $"WORKSTATIONS")]])]]]) = true.
Proof. vm_compute. reflexivity. Qed.

(** test/pytest/test_group_functions.py test_expand_issue_65 *)
Example group_functions_expand_issue_65 : is_ (at_ [] (ttp_result (fun _ => None) false sort_set ({| w_file := fun p => assoc p []; w_dir := fun p => assoc p []; w_tdir := None; w_exec := fun _ => out_of_model |}) $"" [] $"
<input load=""text"">
interface GigabitEthernet1/1
   description to core-1
   switchport mode trunk
   mtu 9100
   vrf ABC
!
interface GigabitEthernet1/2
   description to AGG-1
   switchport mode access
   mtu 9200
   vrf XYZ
!
</input>

<group name=""interfaces.interface*"" expand="""">
interface {{ name }}
   description {{ config.description | ORPHRASE }}
   mtu {{ config.mtu | to_int }}
   vrf {{ vrf }}
   <group name=""switched-vlan"">
   switchport mode {{ mode }}
   </group>
! {{_end_}}
</group>
    " [] $"list")) (VList [VList [VDict [(KS $"interfaces", VDict [(KS $"interface", VList [VDict [(KS $"config", VDict [(KS $"description", VStr $"to core-1"); (KS $"mtu", VInt (9100))]); (KS $"name", VStr $"GigabitEthernet1/1"); (KS $"switched-vlan", VDict [(KS $"mode", VStr $"trunk")]); (KS $"vrf", VStr $"ABC")]; VDict [(KS $"config", VDict [(KS $"description", VStr $"to AGG-1"); (KS $"mtu", VInt (9200))]); (KS $"name", VStr $"GigabitEthernet1/2"); (KS $"switched-vlan", VDict [(KS $"mode", VStr $"access")]); (KS $"vrf", VStr $"XYZ")]])])]]]) = true.
Proof. vm_compute. reflexivity. Qed.

(** test/pytest/test_group_functions.py test_group_to_int_with_intlist_false_issue_109 *)
Example group_functions_group_to_int_with_intlist_false_issue_109 : is_ (at_ [] (ttp_result (fun _ => None) false sort_set ({| w_file := fun p => assoc p []; w_dir := fun p => assoc p []; w_tdir := None; w_exec := fun _ => out_of_model |}) $"" [] $"
<input load=""text"">
interface GigabitEthernet1/1
   switchport trunk allowed vlan 1,2,3,4
!
interface GigabitEthernet1/2
   switchport trunk allowed vlan 123
!    
interface GigabitEthernet1/3
   switchport trunk allowed vlan foo,bar
!    
interface GigabitEthernet1/4
! 
</input>

<group to_int=""trunk_vlan"">
interface {{ name }}
   switchport trunk allowed vlan {{ trunk_vlan | split(',') }}
</group>
    " [] $"list")) (VList [VList [VList [VDict [(KS $"name", VStr $"GigabitEthernet1/1"); (KS $"trunk_vlan", VList [VStr $"1"; VStr $"2"; VStr $"3"; VStr $"4"])]; VDict [(KS $"name", VStr $"GigabitEthernet1/2"); (KS $"trunk_vlan", VList [VStr $"123"])]; VDict [(KS $"name", VStr $"GigabitEthernet1/3"); (KS $"trunk_vlan", VList [VStr $"foo"; VStr $"bar"])]; VDict [(KS $"name", VStr $"GigabitEthernet1/4")]]]]) = true.
Proof. vm_compute. reflexivity. Qed.

(** test/pytest/test_group_lookup.py test_group_lookup_using_lookup_table_action_add_field *)
Example group_lookup_group_lookup_using_lookup_table_action_add_field : is_ (at_ [] (ttp_result (fun _ => None) false sort_set ({| w_file := fun p => assoc p []; w_dir := fun p => assoc p []; w_tdir := None; w_exec := fun _ => out_of_model |}) $"" [] $"
<input load=""text"">
Protocol  Address     Age (min)  Hardware Addr   Type   Interface
Internet  10.12.13.2        98   0950.5785.5cd1  ARPA   FastEthernet2.13
Internet  10.12.14.3       131   0150.7685.14d5  ARPA   GigabitEthernet2.13
</input>

<lookup name=""lookup_data"" load=""python"">
{ ""ip_addresses"": {
  ""10.12.13.2"": ""app_1"",
  ""10.12.14.3"": ""app_2""}}
</lookup>

<group name=""arp"" lookup=""'ip', name='lookup_data.ip_addresses', add_field='APP'"">
Internet  {{ ip }}  {{ age | DIGIT }}   {{ mac }}  ARPA   {{ interface }}
</group>
" [] $"list")) (VList [VList [VDict [(KS $"arp", VList [VDict [(KS $"APP", VStr $"app_1"); (KS $"age", VStr $"98"); (KS $"interface", VStr $"FastEthernet2.13"); (KS $"ip", VStr $"10.12.13.2"); (KS $"mac", VStr $"0950.5785.5cd1")]; VDict [(KS $"APP", VStr $"app_2"); (KS $"age", VStr $"131"); (KS $"interface", VStr $"GigabitEthernet2.13"); (KS $"ip", VStr $"10.12.14.3"); (KS $"mac", VStr $"0150.7685.14d5")]])]]]) = true.
Proof. vm_compute. reflexivity. Qed.

(** test/pytest/test_headers_indicator.py test_headers_indicator_left_aligned *)
Example headers_indicator_headers_indicator_left_aligned : is_ (at_ [] (ttp_result (fun _ => None) false sort_set ({| w_file := fun p => assoc p []; w_dir := fun p => assoc p []; w_tdir := None; w_exec := fun _ => out_of_model |}) $"" [] $"
<input load=""text"">
Port      Name               Status       Vlan       Duplex  Speed Type
Gi0/1     PIT-VDU213         connected    18         a-full  a-100 10/100/1000BaseTX
Gi0/2     PIT-VDU211         connected    18         a-full  a-100 10/100/1000BaseTX
Gi0/3     PIT-VDU212         notconnect   18           auto   auto 10/100/1000BaseTX
Gi0/4                        connected    18         a-full  a-100 10/100/1000BaseTX
Gi0/5                        notconnect   18           auto   auto 10/100/1000BaseTX
Gi0/6                        notconnect   18           auto   auto 10/100/1000BaseTX
Gi0/7                        notconnect   18           auto   auto 10/100/1000BaseTX
Gi0/8                        notconnect   18           auto   auto 10/100/1000BaseTX
Gi0/9                        notconnect   18           auto   auto 10/100/1000BaseTX
Gi0/10                       notconnect   18           auto   auto 10/100/1000BaseTX
Gi0/11                       notconnect   18           auto   auto 10/100/1000BaseTX
Gi0/12                       notconnect   18           auto   auto 10/100/1000BaseTX
Gi0/13                       disabled     1            auto   auto 10/100/1000BaseTX
Gi0/14                       disabled     1            auto   auto 10/100/1000BaseTX
Gi0/15                       connected    trunk        full   1000 1000BaseLX SFP
Gi0/16    pitrs2201 te1/1/4  connected    trunk        full   1000  1000BaseLX SFP
</input>

<group>
Port      Name               Status       Vlan       Duplex  Speed Type   {{ _headers_ }}
</group>   
" [] $"list")) (VList [VList [VList [VDict [(KS $"Duplex", VStr $"a-full"); (KS $"Name", VStr $"PIT-VDU213"); (KS $"Port", VStr $"Gi0/1"); (KS $"Speed", VStr $"a-100"); (KS $"Status", VStr $"connected"); (KS $"Type", VStr $"10/100/1000BaseTX"); (KS $"Vlan", VStr $"18")]; VDict [(KS $"Duplex", VStr $"a-full"); (KS $"Name", VStr $"PIT-VDU211"); (KS $"Port", VStr $"Gi0/2"); (KS $"Speed", VStr $"a-100"); (KS $"Status", VStr $"connected"); (KS $"Type", VStr $"10/100/1000BaseTX"); (KS $"Vlan", VStr $"18")]; VDict [(KS $"Duplex", VStr $"auto"); (KS $"Name", VStr $"PIT-VDU212"); (KS $"Port", VStr $"Gi0/3"); (KS $"Speed", VStr $"auto"); (KS $"Status", VStr $"notconnect"); (KS $"Type", VStr $"10/100/1000BaseTX"); (KS $"Vlan", VStr $"18")]; VDict [(KS $"Duplex", VStr $"a-full"); (KS $"Name", VStr $""); (KS $"Port", VStr $"Gi0/4"); (KS $"Speed", VStr $"a-100"); (KS $"Status", VStr $"connected"); (KS $"Type", VStr $"10/100/1000BaseTX"); (KS $"Vlan", VStr $"18")]; VDict [(KS $"Duplex", VStr $"auto"); (KS $"Name", VStr $""); (KS $"Port", VStr $"Gi0/5"); (KS $"Speed", VStr $"auto"); (KS $"Status", VStr $"notconnect"); (KS $"Type", VStr $"10/100/1000BaseTX"); (KS $"Vlan", VStr $"18")]; VDict [(KS $"Duplex", VStr $"auto"); (KS $"Name", VStr $""); (KS $"Port", VStr $"Gi0/6"); (KS $"Speed", VStr $"auto"); (KS $"Status", VStr $"notconnect"); (KS $"Type", VStr $"10/100/1000BaseTX"); (KS $"Vlan", VStr $"18")]; VDict [(KS $"Duplex", VStr $"auto"); (KS $"Name", VStr $""); (KS $"Port", VStr $"Gi0/7"); (KS $"Speed", VStr $"auto"); (KS $"Status", VStr $"notconnect"); (KS $"Type", VStr $"10/100/1000BaseTX"); (KS $"Vlan", VStr $"18")]; VDict [(KS $"Duplex", VStr $"auto"); (KS $"Name", VStr $""); (KS $"Port", VStr $"Gi0/8"); (KS $"Speed", VStr $"auto"); (KS $"Status", VStr $"notconnect"); (KS $"Type", VStr $"10/100/1000BaseTX"); (KS $"Vlan", VStr $"18")]; VDict [(KS $"Duplex", VStr $"auto"); (KS $"Name", VStr $""); (KS $"Port", VStr $"Gi0/9"); (KS $"Speed", VStr $"auto"); (KS $"Status", VStr $"notconnect"); (KS $"Type", VStr $"10/100/1000BaseTX"); (KS $"Vlan", VStr $"18")]; VDict [(KS $"Duplex", VStr $"auto"); (KS $"Name", VStr $""); (KS $"Port", VStr $"Gi0/10"); (KS $"Speed", VStr $"auto"); (KS $"Status", VStr $"notconnect"); (KS $"Type", VStr $"10/100/1000BaseTX"); (KS $"Vlan", VStr $"18")]; VDict [(KS $"Duplex", VStr $"auto"); (KS $"Name", VStr $""); (KS $"Port", VStr $"Gi0/11"); (KS $"Speed", VStr $"auto"); (KS $"Status", VStr $"notconnect"); (KS $"Type", VStr $"10/100/1000BaseTX"); (KS $"Vlan", VStr $"18")]; VDict [(KS $"Duplex", VStr $"auto"); (KS $"Name", VStr $""); (KS $"Port", VStr $"Gi0/12"); (KS $"Speed", VStr $"auto"); (KS $"Status", VStr $"notconnect"); (KS $"Type", VStr $"10/100/1000BaseTX"); (KS $"Vlan", VStr $"18")]; VDict [(KS $"Duplex", VStr $"auto"); (KS $"Name", VStr $""); (KS $"Port", VStr $"Gi0/13"); (KS $"Speed", VStr $"auto"); (KS $"Status", VStr $"disabled"); (KS $"Type", VStr $"10/100/1000BaseTX"); (KS $"Vlan", VStr $"1")]; VDict [(KS $"Duplex", VStr $"auto"); (KS $"Name", VStr $""); (KS $"Port", VStr $"Gi0/14"); (KS $"Speed", VStr $"auto"); (KS $"Status", VStr $"disabled"); (KS $"Type", VStr $"10/100/1000BaseTX"); (KS $"Vlan", VStr $"1")]; VDict [(KS $"Duplex", VStr $"full"); (KS $"Name", VStr $""); (KS $"Port", VStr $"Gi0/15"); (KS $"Speed", VStr $"1000"); (KS $"Status", VStr $"connected"); (KS $"Type", VStr $"1000BaseLX SFP"); (KS $"Vlan", VStr $"trunk")]; VDict [(KS $"Duplex", VStr $"full"); (KS $"Name", VStr $"pitrs2201 te1/1/4"); (KS $"Port", VStr $"Gi0/16"); (KS $"Speed", VStr $"1000"); (KS $"Status", VStr $"connected"); (KS $"Type", VStr $"1000BaseLX SFP"); (KS $"Vlan", VStr $"trunk")]]]]) = true.
Proof. vm_compute. reflexivity. Qed.

(** test/pytest/test_headers_indicator.py test_headers_indicator_columns_merged *)
Example headers_indicator_headers_indicator_columns_merged : is_ (at_ [] (ttp_result (fun _ => None) false sort_set ({| w_file := fun p => assoc p []; w_dir := fun p => assoc p []; w_tdir := None; w_exec := fun _ => out_of_model |}) $"" [] $"
<input load=""text"">
Port   Name             Status    Vlan       Duplex  Speed Type
Gi0/1  PIT-VDU213       connected 18         a-full  a-100 10/100/1000BaseTX
Gi0/3  PIT-VDU212       notconnect18           auto   auto 10/100/1000BaseTX
Gi0/5                   notconnect18           auto   auto 10/100/1000BaseTX
Gi0/15                  connected trunk        full   1000 1000BaseLX SFP
Gi0/16 pitrs2201 te1/1/4connected trunk        full   1000  1000BaseLX SFP
</input>

<group>
Port   Name             Status    Vlan       Duplex  Speed Type   {{ _headers_ }}
</group>   
" [] $"list")) (VList [VList [VList [VDict [(KS $"Duplex", VStr $"a-full"); (KS $"Name", VStr $"PIT-VDU213"); (KS $"Port", VStr $"Gi0/1"); (KS $"Speed", VStr $"a-100"); (KS $"Status", VStr $"connected"); (KS $"Type", VStr $"10/100/1000BaseTX"); (KS $"Vlan", VStr $"18")]; VDict [(KS $"Duplex", VStr $"auto"); (KS $"Name", VStr $"PIT-VDU212"); (KS $"Port", VStr $"Gi0/3"); (KS $"Speed", VStr $"auto"); (KS $"Status", VStr $"notconnect"); (KS $"Type", VStr $"10/100/1000BaseTX"); (KS $"Vlan", VStr $"18")]; VDict [(KS $"Duplex", VStr $"auto"); (KS $"Name", VStr $""); (KS $"Port", VStr $"Gi0/5"); (KS $"Speed", VStr $"auto"); (KS $"Status", VStr $"notconnect"); (KS $"Type", VStr $"10/100/1000BaseTX"); (KS $"Vlan", VStr $"18")]; VDict [(KS $"Duplex", VStr $"full"); (KS $"Name", VStr $""); (KS $"Port", VStr $"Gi0/15"); (KS $"Speed", VStr $"1000"); (KS $"Status", VStr $"connected"); (KS $"Type", VStr $"1000BaseLX SFP"); (KS $"Vlan", VStr $"trunk")]; VDict [(KS $"Duplex", VStr $"full"); (KS $"Name", VStr $"pitrs2201 te1/1/4"); (KS $"Port", VStr $"Gi0/16"); (KS $"Speed", VStr $"1000"); (KS $"Status", VStr $"connected"); (KS $"Type", VStr $"1000BaseLX SFP"); (KS $"Vlan", VStr $"trunk")]]]]) = true.
Proof. vm_compute. reflexivity. Qed.

(** test/pytest/test_headers_indicator.py test_headers_docs_example *)
Example headers_indicator_headers_docs_example : is_ (at_ [] (ttp_result (fun _ => None) false sort_set ({| w_file := fun p => assoc p []; w_dir := fun p => assoc p []; w_tdir := None; w_exec := fun _ => out_of_model |}) $"" [] $"
<input load=""text"">
Port      Name               Status       Vlan       Duplex  Speed Type
Gi0/1     PIT-VDU213         connected    18         a-full  a-100 10/100/1000BaseTX
Gi0/4                        connected    18         a-full  a-100 10/100/1000BaseTX
Gi0/16    pitrs2201 te1/1/4  connected    trunk        full   1000  1000BaseLX SFP
</input>

<group>
Port      Name               Status       Vlan       Duplex  Speed Type   {{ _headers_ }}
</group>   
    " [] $"list")) (VList [VList [VList [VDict [(KS $"Duplex", VStr $"a-full"); (KS $"Name", VStr $"PIT-VDU213"); (KS $"Port", VStr $"Gi0/1"); (KS $"Speed", VStr $"a-100"); (KS $"Status", VStr $"connected"); (KS $"Type", VStr $"10/100/1000BaseTX"); (KS $"Vlan", VStr $"18")]; VDict [(KS $"Duplex", VStr $"a-full"); (KS $"Name", VStr $""); (KS $"Port", VStr $"Gi0/4"); (KS $"Speed", VStr $"a-100"); (KS $"Status", VStr $"connected"); (KS $"Type", VStr $"10/100/1000BaseTX"); (KS $"Vlan", VStr $"18")]; VDict [(KS $"Duplex", VStr $"full"); (KS $"Name", VStr $"pitrs2201 te1/1/4"); (KS $"Port", VStr $"Gi0/16"); (KS $"Speed", VStr $"1000"); (KS $"Status", VStr $"connected"); (KS $"Type", VStr $"1000BaseLX SFP"); (KS $"Vlan", VStr $"trunk")]]]]) = true.
Proof. vm_compute. reflexivity. Qed.

(** test/pytest/test_headers_indicator.py test_headers_last_column_empty *)
Example headers_indicator_headers_last_column_empty : is_ (at_ [] (ttp_result (fun _ => None) false sort_set ({| w_file := fun p => assoc p []; w_dir := fun p => assoc p []; w_tdir := None; w_exec := fun _ => out_of_model |}) $"" [] $"
Filesystem              K1_blocks Used    Available Use_ Mounted_on {{ _headers_ }}
" [(VStr $"
Filesystem              1K-blocks    Used Available Use% Mounted on
tmpfs                     1457328       0   1457328   0% /sys/fs/cgroup
/dev/mapper/centos-root  14034944 5783384   8251560  2%
/dev/sda1                 1038336  220604    817732  22% /boot
    ", $"_root_template_")] $"list")) (VList [VList [VList [VDict [(KS $"Available", VStr $"1457328"); (KS $"Filesystem", VStr $"tmpfs"); (KS $"K1_blocks", VStr $"1457328"); (KS $"Mounted_on", VStr $"/sys/fs/cgroup"); (KS $"Use_", VStr $"0%"); (KS $"Used", VStr $"0")]; VDict [(KS $"Available", VStr $"8251560"); (KS $"Filesystem", VStr $"/dev/mapper/centos-root"); (KS $"K1_blocks", VStr $"14034944"); (KS $"Mounted_on", VStr $""); (KS $"Use_", VStr $"2%"); (KS $"Used", VStr $"5783384")]; VDict [(KS $"Available", VStr $"817732"); (KS $"Filesystem", VStr $"/dev/sda1"); (KS $"K1_blocks", VStr $"1038336"); (KS $"Mounted_on", VStr $"/boot"); (KS $"Use_", VStr $"22%"); (KS $"Used", VStr $"220604")]]]]) = true.
Proof. vm_compute. reflexivity. Qed.

(** test/pytest/test_headers_indicator.py test_headers_with_column *)
Example headers_indicator_headers_with_column : is_ (at_ [] (ttp_result (fun _ => None) false sort_set ({| w_file := fun p => assoc p []; w_dir := fun p => assoc p []; w_tdir := None; w_exec := fun _ => out_of_model |}) $"" [] $"
<input load=""text"">
Port      Name               Status       Vlan       Duplex  Speed Type
Gi0/1
Gi0/2     PIT-VDU212
Gi0/3     PIT-VDU212         notconnect
Gi0/4     PIT-VDU212         notconnect   18
Gi0/5     PIT-VDU212         notconnect   18         auto
Gi0/6     PIT-VDU212         notconnect   18         auto    auto
Gi0/7     PIT-VDU212         notconnect   18         auto    auto  10/100/1000BaseTX
</input>

<group name=""columns_10"">
Port      Name               Status       Vlan       Duplex  Speed Type   {{ _headers_ | columns(10) }}
</group>  

<group name=""columns_7"">
Port      Name               Status       Vlan       Duplex  Speed Type   {{ _headers_ | columns(7) }}
</group>   

<group name=""columns_6"">
Port      Name               Status       Vlan       Duplex  Speed Type   {{ _headers_ | columns(6) }}
</group>   

<group name=""columns_5"">
Port      Name               Status       Vlan       Duplex  Speed Type   {{ _headers_ | columns(5) }}
</group>   

<group name=""columns_4"">
Port      Name               Status       Vlan       Duplex  Speed Type   {{ _headers_ | columns(4) }}
</group>   

<group name=""columns_3"">
Port      Name               Status       Vlan       Duplex  Speed Type   {{ _headers_ | columns(3) }}
</group> 

<group name=""columns_2"">
Port      Name               Status       Vlan       Duplex  Speed Type   {{ _headers_ | columns(2) }}
</group> 

<group name=""columns_1"">
Port      Name               Status       Vlan       Duplex  Speed Type   {{ _headers_ | columns(1) }}
</group> 

<group name=""columns_0"">
Port      Name               Status       Vlan       Duplex  Speed Type   {{ _headers_ | columns(0) }}
</group> 

<group name=""columns__1"">
Port      Name               Status       Vlan       Duplex  Speed Type   {{ _headers_ | columns(-1) }}
</group> 

<group name=""no_columns"">
Port      Name               Status       Vlan       Duplex  Speed Type   {{ _headers_ }}
</group> 
" [] $"list")) (VList [VList [VDict [(KS $"columns_0", VList [VDict [(KS $"Duplex", VStr $""); (KS $"Name", VStr $""); (KS $"Port", VStr $"Gi0/1"); (KS $"Speed", VStr $""); (KS $"Status", VStr $""); (KS $"Type", VStr $""); (KS $"Vlan", VStr $"")]; VDict [(KS $"Duplex", VStr $""); (KS $"Name", VStr $"PIT-VDU212"); (KS $"Port", VStr $"Gi0/2"); (KS $"Speed", VStr $""); (KS $"Status", VStr $""); (KS $"Type", VStr $""); (KS $"Vlan", VStr $"")]; VDict [(KS $"Duplex", VStr $""); (KS $"Name", VStr $"PIT-VDU212"); (KS $"Port", VStr $"Gi0/3"); (KS $"Speed", VStr $""); (KS $"Status", VStr $"notconnect"); (KS $"Type", VStr $""); (KS $"Vlan", VStr $"")]; VDict [(KS $"Duplex", VStr $""); (KS $"Name", VStr $"PIT-VDU212"); (KS $"Port", VStr $"Gi0/4"); (KS $"Speed", VStr $""); (KS $"Status", VStr $"notconnect"); (KS $"Type", VStr $""); (KS $"Vlan", VStr $"18")]; VDict [(KS $"Duplex", VStr $"auto"); (KS $"Name", VStr $"PIT-VDU212"); (KS $"Port", VStr $"Gi0/5"); (KS $"Speed", VStr $""); (KS $"Status", VStr $"notconnect"); (KS $"Type", VStr $""); (KS $"Vlan", VStr $"18")]; VDict [(KS $"Duplex", VStr $"auto"); (KS $"Name", VStr $"PIT-VDU212"); (KS $"Port", VStr $"Gi0/6"); (KS $"Speed", VStr $"auto"); (KS $"Status", VStr $"notconnect"); (KS $"Type", VStr $""); (KS $"Vlan", VStr $"18")]; VDict [(KS $"Duplex", VStr $"auto"); (KS $"Name", VStr $"PIT-VDU212"); (KS $"Port", VStr $"Gi0/7"); (KS $"Speed", VStr $"auto"); (KS $"Status", VStr $"notconnect"); (KS $"Type", VStr $"10/100/1000BaseTX"); (KS $"Vlan", VStr $"18")]]); (KS $"columns_1", VList [VDict [(KS $"Duplex", VStr $""); (KS $"Name", VStr $""); (KS $"Port", VStr $"Gi0/1"); (KS $"Speed", VStr $""); (KS $"Status", VStr $""); (KS $"Type", VStr $""); (KS $"Vlan", VStr $"")]; VDict [(KS $"Duplex", VStr $""); (KS $"Name", VStr $"PIT-VDU212"); (KS $"Port", VStr $"Gi0/2"); (KS $"Speed", VStr $""); (KS $"Status", VStr $""); (KS $"Type", VStr $""); (KS $"Vlan", VStr $"")]; VDict [(KS $"Duplex", VStr $""); (KS $"Name", VStr $"PIT-VDU212"); (KS $"Port", VStr $"Gi0/3"); (KS $"Speed", VStr $""); (KS $"Status", VStr $"notconnect"); (KS $"Type", VStr $""); (KS $"Vlan", VStr $"")]; VDict [(KS $"Duplex", VStr $""); (KS $"Name", VStr $"PIT-VDU212"); (KS $"Port", VStr $"Gi0/4"); (KS $"Speed", VStr $""); (KS $"Status", VStr $"notconnect"); (KS $"Type", VStr $""); (KS $"Vlan", VStr $"18")]; VDict [(KS $"Duplex", VStr $"auto"); (KS $"Name", VStr $"PIT-VDU212"); (KS $"Port", VStr $"Gi0/5"); (KS $"Speed", VStr $""); (KS $"Status", VStr $"notconnect"); (KS $"Type", VStr $""); (KS $"Vlan", VStr $"18")]; VDict [(KS $"Duplex", VStr $"auto"); (KS $"Name", VStr $"PIT-VDU212"); (KS $"Port", VStr $"Gi0/6"); (KS $"Speed", VStr $"auto"); (KS $"Status", VStr $"notconnect"); (KS $"Type", VStr $""); (KS $"Vlan", VStr $"18")]; VDict [(KS $"Duplex", VStr $"auto"); (KS $"Name", VStr $"PIT-VDU212"); (KS $"Port", VStr $"Gi0/7"); (KS $"Speed", VStr $"auto"); (KS $"Status", VStr $"notconnect"); (KS $"Type", VStr $"10/100/1000BaseTX"); (KS $"Vlan", VStr $"18")]]); (KS $"columns_10", VDict [(KS $"Duplex", VStr $"auto"); (KS $"Name", VStr $"PIT-VDU212"); (KS $"Port", VStr $"Gi0/7"); (KS $"Speed", VStr $"auto"); (KS $"Status", VStr $"notconnect"); (KS $"Type", VStr $"10/100/1000BaseTX"); (KS $"Vlan", VStr $"18")]); (KS $"columns_2", VList [VDict [(KS $"Duplex", VStr $""); (KS $"Name", VStr $"PIT-VDU212"); (KS $"Port", VStr $"Gi0/2"); (KS $"Speed", VStr $""); (KS $"Status", VStr $""); (KS $"Type", VStr $""); (KS $"Vlan", VStr $"")]; VDict [(KS $"Duplex", VStr $""); (KS $"Name", VStr $"PIT-VDU212"); (KS $"Port", VStr $"Gi0/3"); (KS $"Speed", VStr $""); (KS $"Status", VStr $"notconnect"); (KS $"Type", VStr $""); (KS $"Vlan", VStr $"")]; VDict [(KS $"Duplex", VStr $""); (KS $"Name", VStr $"PIT-VDU212"); (KS $"Port", VStr $"Gi0/4"); (KS $"Speed", VStr $""); (KS $"Status", VStr $"notconnect"); (KS $"Type", VStr $""); (KS $"Vlan", VStr $"18")]; VDict [(KS $"Duplex", VStr $"auto"); (KS $"Name", VStr $"PIT-VDU212"); (KS $"Port", VStr $"Gi0/5"); (KS $"Speed", VStr $""); (KS $"Status", VStr $"notconnect"); (KS $"Type", VStr $""); (KS $"Vlan", VStr $"18")]; VDict [(KS $"Duplex", VStr $"auto"); (KS $"Name", VStr $"PIT-VDU212"); (KS $"Port", VStr $"Gi0/6"); (KS $"Speed", VStr $"auto"); (KS $"Status", VStr $"notconnect"); (KS $"Type", VStr $""); (KS $"Vlan", VStr $"18")]; VDict [(KS $"Duplex", VStr $"auto"); (KS $"Name", VStr $"PIT-VDU212"); (KS $"Port", VStr $"Gi0/7"); (KS $"Speed", VStr $"auto"); (KS $"Status", VStr $"notconnect"); (KS $"Type", VStr $"10/100/1000BaseTX"); (KS $"Vlan", VStr $"18")]]); (KS $"columns_3", VList [VDict [(KS $"Duplex", VStr $""); (KS $"Name", VStr $"PIT-VDU212"); (KS $"Port", VStr $"Gi0/3"); (KS $"Speed", VStr $""); (KS $"Status", VStr $"notconnect"); (KS $"Type", VStr $""); (KS $"Vlan", VStr $"")]; VDict [(KS $"Duplex", VStr $""); (KS $"Name", VStr $"PIT-VDU212"); (KS $"Port", VStr $"Gi0/4"); (KS $"Speed", VStr $""); (KS $"Status", VStr $"notconnect"); (KS $"Type", VStr $""); (KS $"Vlan", VStr $"18")]; VDict [(KS $"Duplex", VStr $"auto"); (KS $"Name", VStr $"PIT-VDU212"); (KS $"Port", VStr $"Gi0/5"); (KS $"Speed", VStr $""); (KS $"Status", VStr $"notconnect"); (KS $"Type", VStr $""); (KS $"Vlan", VStr $"18")]; VDict [(KS $"Duplex", VStr $"auto"); (KS $"Name", VStr $"PIT-VDU212"); (KS $"Port", VStr $"Gi0/6"); (KS $"Speed", VStr $"auto"); (KS $"Status", VStr $"notconnect"); (KS $"Type", VStr $""); (KS $"Vlan", VStr $"18")]; VDict [(KS $"Duplex", VStr $"auto"); (KS $"Name", VStr $"PIT-VDU212"); (KS $"Port", VStr $"Gi0/7"); (KS $"Speed", VStr $"auto"); (KS $"Status", VStr $"notconnect"); (KS $"Type", VStr $"10/100/1000BaseTX"); (KS $"Vlan", VStr $"18")]]); (KS $"columns_4", VList [VDict [(KS $"Duplex", VStr $""); (KS $"Name", VStr $"PIT-VDU212"); (KS $"Port", VStr $"Gi0/4"); (KS $"Speed", VStr $""); (KS $"Status", VStr $"notconnect"); (KS $"Type", VStr $""); (KS $"Vlan", VStr $"18")]; VDict [(KS $"Duplex", VStr $"auto"); (KS $"Name", VStr $"PIT-VDU212"); (KS $"Port", VStr $"Gi0/5"); (KS $"Speed", VStr $""); (KS $"Status", VStr $"notconnect"); (KS $"Type", VStr $""); (KS $"Vlan", VStr $"18")]; VDict [(KS $"Duplex", VStr $"auto"); (KS $"Name", VStr $"PIT-VDU212"); (KS $"Port", VStr $"Gi0/6"); (KS $"Speed", VStr $"auto"); (KS $"Status", VStr $"notconnect"); (KS $"Type", VStr $""); (KS $"Vlan", VStr $"18")]; VDict [(KS $"Duplex", VStr $"auto"); (KS $"Name", VStr $"PIT-VDU212"); (KS $"Port", VStr $"Gi0/7"); (KS $"Speed", VStr $"auto"); (KS $"Status", VStr $"notconnect"); (KS $"Type", VStr $"10/100/1000BaseTX"); (KS $"Vlan", VStr $"18")]]); (KS $"columns_5", VList [VDict [(KS $"Duplex", VStr $"auto"); (KS $"Name", VStr $"PIT-VDU212"); (KS $"Port", VStr $"Gi0/5"); (KS $"Speed", VStr $""); (KS $"Status", VStr $"notconnect"); (KS $"Type", VStr $""); (KS $"Vlan", VStr $"18")]; VDict [(KS $"Duplex", VStr $"auto"); (KS $"Name", VStr $"PIT-VDU212"); (KS $"Port", VStr $"Gi0/6"); (KS $"Speed", VStr $"auto"); (KS $"Status", VStr $"notconnect"); (KS $"Type", VStr $""); (KS $"Vlan", VStr $"18")]; VDict [(KS $"Duplex", VStr $"auto"); (KS $"Name", VStr $"PIT-VDU212"); (KS $"Port", VStr $"Gi0/7"); (KS $"Speed", VStr $"auto"); (KS $"Status", VStr $"notconnect"); (KS $"Type", VStr $"10/100/1000BaseTX"); (KS $"Vlan", VStr $"18")]]); (KS $"columns_6", VList [VDict [(KS $"Duplex", VStr $"auto"); (KS $"Name", VStr $"PIT-VDU212"); (KS $"Port", VStr $"Gi0/6"); (KS $"Speed", VStr $"auto"); (KS $"Status", VStr $"notconnect"); (KS $"Type", VStr $""); (KS $"Vlan", VStr $"18")]; VDict [(KS $"Duplex", VStr $"auto"); (KS $"Name", VStr $"PIT-VDU212"); (KS $"Port", VStr $"Gi0/7"); (KS $"Speed", VStr $"auto"); (KS $"Status", VStr $"notconnect"); (KS $"Type", VStr $"10/100/1000BaseTX"); (KS $"Vlan", VStr $"18")]]); (KS $"columns_7", VDict [(KS $"Duplex", VStr $"auto"); (KS $"Name", VStr $"PIT-VDU212"); (KS $"Port", VStr $"Gi0/7"); (KS $"Speed", VStr $"auto"); (KS $"Status", VStr $"notconnect"); (KS $"Type", VStr $"10/100/1000BaseTX"); (KS $"Vlan", VStr $"18")]); (KS $"columns__1", VList [VDict [(KS $"Duplex", VStr $""); (KS $"Name", VStr $""); (KS $"Port", VStr $"Gi0/1"); (KS $"Speed", VStr $""); (KS $"Status", VStr $""); (KS $"Type", VStr $""); (KS $"Vlan", VStr $"")]; VDict [(KS $"Duplex", VStr $""); (KS $"Name", VStr $"PIT-VDU212"); (KS $"Port", VStr $"Gi0/2"); (KS $"Speed", VStr $""); (KS $"Status", VStr $""); (KS $"Type", VStr $""); (KS $"Vlan", VStr $"")]; VDict [(KS $"Duplex", VStr $""); (KS $"Name", VStr $"PIT-VDU212"); (KS $"Port", VStr $"Gi0/3"); (KS $"Speed", VStr $""); (KS $"Status", VStr $"notconnect"); (KS $"Type", VStr $""); (KS $"Vlan", VStr $"")]; VDict [(KS $"Duplex", VStr $""); (KS $"Name", VStr $"PIT-VDU212"); (KS $"Port", VStr $"Gi0/4"); (KS $"Speed", VStr $""); (KS $"Status", VStr $"notconnect"); (KS $"Type", VStr $""); (KS $"Vlan", VStr $"18")]; VDict [(KS $"Duplex", VStr $"auto"); (KS $"Name", VStr $"PIT-VDU212"); (KS $"Port", VStr $"Gi0/5"); (KS $"Speed", VStr $""); (KS $"Status", VStr $"notconnect"); (KS $"Type", VStr $""); (KS $"Vlan", VStr $"18")]; VDict [(KS $"Duplex", VStr $"auto"); (KS $"Name", VStr $"PIT-VDU212"); (KS $"Port", VStr $"Gi0/6"); (KS $"Speed", VStr $"auto"); (KS $"Status", VStr $"notconnect"); (KS $"Type", VStr $""); (KS $"Vlan", VStr $"18")]; VDict [(KS $"Duplex", VStr $"auto"); (KS $"Name", VStr $"PIT-VDU212"); (KS $"Port", VStr $"Gi0/7"); (KS $"Speed", VStr $"auto"); (KS $"Status", VStr $"notconnect"); (KS $"Type", VStr $"10/100/1000BaseTX"); (KS $"Vlan", VStr $"18")]]); (KS $"no_columns", VList [VDict [(KS $"Duplex", VStr $"auto"); (KS $"Name", VStr $"PIT-VDU212"); (KS $"Port", VStr $"Gi0/5"); (KS $"Speed", VStr $""); (KS $"Status", VStr $"notconnect"); (KS $"Type", VStr $""); (KS $"Vlan", VStr $"18")]; VDict [(KS $"Duplex", VStr $"auto"); (KS $"Name", VStr $"PIT-VDU212"); (KS $"Port", VStr $"Gi0/6"); (KS $"Speed", VStr $"auto"); (KS $"Status", VStr $"notconnect"); (KS $"Type", VStr $""); (KS $"Vlan", VStr $"18")]; VDict [(KS $"Duplex", VStr $"auto"); (KS $"Name", VStr $"PIT-VDU212"); (KS $"Port", VStr $"Gi0/7"); (KS $"Speed", VStr $"auto"); (KS $"Status", VStr $"notconnect"); (KS $"Type", VStr $"10/100/1000BaseTX"); (KS $"Vlan", VStr $"18")]])]]]) = true.
Proof. vm_compute. reflexivity. Qed.

(** test/pytest/test_inputs.py test_inputs_url_filters_extensions *)
Example inputs_inputs_url_filters_extensions : is_ (at_ [] (ttp_result (fun _ => None) false sort_set ({| w_file := fun p => assoc p [($"./mock_data/dataset_2/data_1.log", $"interface Lo0
 description data_1.log file
 ip address 1.0.0.0 32
!
interface Lo1
 description this interface has description
 ip address 1.1.1.1 32    
!"); ($"./mock_data/dataset_2/data_2.txt", $"interface Lo2
 ip address 2.2.2.2 32
!
interface Lo3
 description this interface has description
 ip address 3.3.3.3 32
!"); ($"././mock_data/dataset_2/data_1.log", $"interface Lo0
 description data_1.log file
 ip address 1.0.0.0 32
!
interface Lo1
 description this interface has description
 ip address 1.1.1.1 32    
!"); ($"././mock_data/dataset_2/data_2.txt", $"interface Lo2
 ip address 2.2.2.2 32
!
interface Lo3
 description this interface has description
 ip address 3.3.3.3 32
!"); ($".//mock_data/dataset_2/data_1.log", $"interface Lo0
 description data_1.log file
 ip address 1.0.0.0 32
!
interface Lo1
 description this interface has description
 ip address 1.1.1.1 32    
!"); ($".//mock_data/dataset_2/data_2.txt", $"interface Lo2
 ip address 2.2.2.2 32
!
interface Lo3
 description this interface has description
 ip address 3.3.3.3 32
!"); ($"./mock_data/dataset_1/data_1.txt", $"interface Lo0
 description data_1 file
 ip address 1.0.0.0 32
!
interface Lo1
 description this interface has description
 ip address 1.1.1.1 32    
!"); ($"./mock_data/dataset_1/data_2.txt", $"interface Lo2
 description data-2 file
 ip address 2.2.2.2 32
!
interface Lo3
 description this interface has description
 ip address 3.3.3.3 32
!"); ($"./mock_data/dataset_1/data_XYZ.txt", $"interface Lo10
 ip address 1.100.0.0 32
!
interface Lo11
 description this interface from XYZ dataset
 ip address 1.11.1.1 32    
!"); ($"././mock_data/dataset_1/data_1.txt", $"interface Lo0
 description data_1 file
 ip address 1.0.0.0 32
!
interface Lo1
 description this interface has description
 ip address 1.1.1.1 32    
!"); ($"././mock_data/dataset_1/data_2.txt", $"interface Lo2
 description data-2 file
 ip address 2.2.2.2 32
!
interface Lo3
 description this interface has description
 ip address 3.3.3.3 32
!"); ($"././mock_data/dataset_1/data_XYZ.txt", $"interface Lo10
 ip address 1.100.0.0 32
!
interface Lo11
 description this interface from XYZ dataset
 ip address 1.11.1.1 32    
!"); ($".//mock_data/dataset_1/data_1.txt", $"interface Lo0
 description data_1 file
 ip address 1.0.0.0 32
!
interface Lo1
 description this interface has description
 ip address 1.1.1.1 32    
!"); ($".//mock_data/dataset_1/data_2.txt", $"interface Lo2
 description data-2 file
 ip address 2.2.2.2 32
!
interface Lo3
 description this interface has description
 ip address 3.3.3.3 32
!"); ($".//mock_data/dataset_1/data_XYZ.txt", $"interface Lo10
 ip address 1.100.0.0 32
!
interface Lo11
 description this interface from XYZ dataset
 ip address 1.11.1.1 32    
!")]; w_dir := fun p => assoc p [($"./mock_data/dataset_2/", [$"data_1.log"; $"data_2.txt"]); ($"././mock_data/dataset_2/", [$"data_1.log"; $"data_2.txt"]); ($"./mock_data/dataset_2", [$"data_1.log"; $"data_2.txt"]); ($"././mock_data/dataset_2", [$"data_1.log"; $"data_2.txt"]); ($".//mock_data/dataset_2/", [$"data_1.log"; $"data_2.txt"]); ($"./mock_data/dataset_1", [$"data_1.txt"; $"data_2.txt"; $"data_XYZ.txt"]); ($"././mock_data/dataset_1", [$"data_1.txt"; $"data_2.txt"; $"data_XYZ.txt"]); ($"./mock_data/dataset_1/", [$"data_1.txt"; $"data_2.txt"; $"data_XYZ.txt"]); ($"././mock_data/dataset_1/", [$"data_1.txt"; $"data_2.txt"; $"data_XYZ.txt"]); ($".//mock_data/dataset_1/", [$"data_1.txt"; $"data_2.txt"; $"data_XYZ.txt"])]; w_tdir := None; w_exec := fun _ => out_of_model |}) $"" [] $"
<input name=""in_1"">
groups=""in_1_group""
url = ""./mock_data/dataset_1/""
filters = r""data_\d""
</input>

<input name=""in_2"" groups=""in_2_group"">
url = ""./mock_data/dataset_2/""
extensions = [""log""]
</input>

<group name=""in_1_group"">
interface {{ interface }}
 description {{ description | ORPHRASE }}
 ip address {[ ip }} {{ mask }}    
</group>

<group name=""in_2_group"" input=""in_2"">
interface {{ interface }}
 description {{ description | ORPHRASE }}
 ip address {[ ip }} {{ mask }}    
</group>
    " [] $"list")) (VList [VList [VDict [(KS $"in_1_group", VList [VDict [(KS $"description", VStr $"data_1 file"); (KS $"interface", VStr $"Lo0")]; VDict [(KS $"description", VStr $"this interface has description"); (KS $"interface", VStr $"Lo1")]])]; VDict [(KS $"in_1_group", VList [VDict [(KS $"description", VStr $"data-2 file"); (KS $"interface", VStr $"Lo2")]; VDict [(KS $"description", VStr $"this interface has description"); (KS $"interface", VStr $"Lo3")]])]; VDict [(KS $"in_2_group", VList [VDict [(KS $"description", VStr $"data_1.log file"); (KS $"interface", VStr $"Lo0")]; VDict [(KS $"description", VStr $"this interface has description"); (KS $"interface", VStr $"Lo1")]])]]]) = true.
Proof. vm_compute. reflexivity. Qed.

(** test/pytest/test_line_indicator.py test_line_when_its_start_re *)
Example line_indicator_line_when_its_start_re : is_ (at_ [] (ttp_result (fun _ => None) false sort_set ({| w_file := fun p => assoc p []; w_dir := fun p => assoc p []; w_tdir := None; w_exec := fun _ => out_of_model |}) $"" [] $"
<template name=""vrrp"" results=""per_template"">

<vars>
hostname=""gethostname""
</vars>

<group name=""{{ hostname }}.{{ interface }}.Group-{{ VRRP_Group }}"">
{{ interface }} - Group {{ VRRP_Group | DIGIT }}
<group name=""_"">
{{ VRRP_Description | _line_ }}
State is {{ ignore }} {{ _end_ }}
</group>
State is {{ VRRP_State | contains(""Master"") | let(""VRRP Master for this Group"") }}
State is {{ VRRP_State | contains(""Init"") | let(""VRRP Slave for this Group"") }}
Virtual IP address is {{ VRRP_Virtual_IP | IP }}
Virtual MAC address is {{ VRRP_MAC | MAC }}
Advertisement interval is {{ adv_interval }} sec
Preemption {{ VRRP_Preempt }}
Priority is {{ VRRP_Priority }}
VRRS Group name {{ Group_Name }}
Track object {{ track_obj }} state {{ track_obj_status }} decrement {{ track_obj_decrement }}
Authentication text {{ Auth_Text }}
Master Router is {{ Master_IP }} (local), priority is {{ priority }}
Master Router is {{ Master_IP }}, priority is {{ priority }}
Master Advertisement interval is {{ master_int }} sec
Master Down interval is {{ master_down }} sec
</group>
</template>
" [(VStr $"
R1#sh vrrp
GigabitEthernet1 - Group 100
DC-LAN Subnet
State is Master
Virtual IP address is 192.168.10.1
Virtual MAC address is 0000.5e00.0164
Advertisement interval is 1.000 sec
Preemption enabled
Priority is 120
VRRS Group name DC_LAN
Track object 1 state Up decrement 30
Authentication text ""hash""
Master Router is 192.168.1.233 (local), priority is 120
Master Advertisement interval is 1.000 sec
Master Down interval is 3.531 sec
Some other line
", $"vrrp"); (VStr $"
R2#sh vrrp
GigabitEthernet1 - Group 100
State is Init
Virtual IP address is 192.168.10.1
Virtual MAC address is 0000.5e00.0164
Advertisement interval is 1.000 sec
Preemption enabled
Priority is 115
Authentication text ""hash""
Master Router is 192.168.1.233, priority is 120
Master Advertisement interval is 1.000 sec
Master Down interval is 3.550 sec
", $"vrrp")] $"dictionary")) (VDict [(KS $"vrrp", VDict [(KS $"R1", VDict [(KS $"GigabitEthernet1", VDict [(KS $"Group-100", VDict [(KS $"Auth_Text", VStr $"""hash"""); (KS $"Group_Name", VStr $"DC_LAN"); (KS $"Master_IP", VStr $"192.168.1.233"); (KS $"VRRP_Description", VStr $"DC-LAN Subnet"); (KS $"VRRP_MAC", VStr $"0000.5e00.0164"); (KS $"VRRP_Preempt", VStr $"enabled"); (KS $"VRRP_Priority", VStr $"120"); (KS $"VRRP_Virtual_IP", VStr $"192.168.10.1"); (KS $"adv_interval", VStr $"1.000"); (KS $"master_down", VStr $"3.531"); (KS $"master_int", VStr $"1.000"); (KS $"priority", VStr $"120"); (KS $"track_obj", VStr $"1"); (KS $"track_obj_decrement", VStr $"30"); (KS $"track_obj_status", VStr $"Up")])])]); (KS $"R2", VDict [(KS $"GigabitEthernet1", VDict [(KS $"Group-100", VDict [(KS $"Auth_Text", VStr $"""hash"""); (KS $"Master_IP", VStr $"192.168.1.233"); (KS $"VRRP_MAC", VStr $"0000.5e00.0164"); (KS $"VRRP_Preempt", VStr $"enabled"); (KS $"VRRP_Priority", VStr $"115"); (KS $"VRRP_State", VStr $"VRRP Slave for this Group"); (KS $"VRRP_Virtual_IP", VStr $"192.168.10.1"); (KS $"adv_interval", VStr $"1.000"); (KS $"master_down", VStr $"3.550"); (KS $"master_int", VStr $"1.000"); (KS $"priority", VStr $"120")])])])])]) = true.
Proof. vm_compute. reflexivity. Qed.

(** test/pytest/test_match_condition_fun.py test_contains_re_from_vars *)
Example match_condition_fun_contains_re_from_vars : is_ (at_ [] (ttp_result (fun _ => None) false sort_set ({| w_file := fun p => assoc p []; w_dir := fun p => assoc p []; w_tdir := None; w_exec := fun _ => out_of_model |}) $"" [] $"
<input load=""text"">
interface Port-Channel11
  description Storage
interface Loopback0
  description RID
interface Port-Channel12
  description Management_2
interface Vlan777
  description Management
</input>

<vars>
var_1 = ""Port-.+""
</vars>

<group>
interface {{ interface | contains_re(var_1) }}
  description {{ description }}
  {{ is_lag | set(True) }}
  {{ is_loopback| set(False) }}
</group>
    " [] $"list")) (VList [VList [VList [VDict [(KS $"description", VStr $"Storage"); (KS $"interface", VStr $"Port-Channel11"); (KS $"is_lag", VBool true); (KS $"is_loopback", VBool false)]; VDict [(KS $"description", VStr $"Management_2"); (KS $"interface", VStr $"Port-Channel12"); (KS $"is_lag", VBool true); (KS $"is_loopback", VBool false)]]]]) = true.
Proof. vm_compute. reflexivity. Qed.

(** test/pytest/test_match_condition_fun.py test_startswith_re_from_vars *)
Example match_condition_fun_startswith_re_from_vars : is_ (at_ [] (ttp_result (fun _ => None) false sort_set ({| w_file := fun p => assoc p []; w_dir := fun p => assoc p []; w_tdir := None; w_exec := fun _ => out_of_model |}) $"" [] $"
<input load=""text"">
interface Port-Channel11
  description Storage
interface Loopback0
  description RID
interface Port-Channel12
  description Management_2
interface Vlan777
  description Management
</input>

<vars>
var_1 = ""Port-.+""
</vars>

<group>
interface {{ interface | startswith_re(var_1) }}
  description {{ description }}
  {{ is_lag | set(True) }}
  {{ is_loopback| set(False) }}
</group>
    " [] $"list")) (VList [VList [VList [VDict [(KS $"description", VStr $"Storage"); (KS $"interface", VStr $"Port-Channel11"); (KS $"is_lag", VBool true); (KS $"is_loopback", VBool false)]; VDict [(KS $"description", VStr $"Management_2"); (KS $"interface", VStr $"Port-Channel12"); (KS $"is_lag", VBool true); (KS $"is_loopback", VBool false)]]]]) = true.
Proof. vm_compute. reflexivity. Qed.

(** test/pytest/test_match_condition_fun.py test_endswith_re_from_vars *)
Example match_condition_fun_endswith_re_from_vars : is_ (at_ [] (ttp_result (fun _ => None) false sort_set ({| w_file := fun p => assoc p []; w_dir := fun p => assoc p []; w_tdir := None; w_exec := fun _ => out_of_model |}) $"" [] $"
<input load=""text"">
interface Port-Channel11
  description Storage Management
interface Loopback0
  description RID
interface Vlan777
  description Management
</input>

<vars>
var_1 = r""Channel\d+""
</vars>

<group>
interface {{ interface | endswith_re(var_1) }}
  description {{ description }}
  {{ is_lag | set(True) }}
  {{ is_loopback| set(False) }}
</group>
    " [] $"list")) (VList [VList [VList [VDict [(KS $"interface", VStr $"Port-Channel11"); (KS $"is_lag", VBool true); (KS $"is_loopback", VBool false)]]]]) = true.
Proof. vm_compute. reflexivity. Qed.

(** test/pytest/test_match_condition_fun.py test_notstartswith_re_from_vars *)
Example match_condition_fun_notstartswith_re_from_vars : is_ (at_ [] (ttp_result (fun _ => None) false sort_set ({| w_file := fun p => assoc p []; w_dir := fun p => assoc p []; w_tdir := None; w_exec := fun _ => out_of_model |}) $"" [] $"
<input load=""text"">
interface Port-Channel11
  description Storage Management
interface Loopback0
  description RID
interface Vlan777
  description Management
</input>

<vars>
var_1 = r""Loop\S+""
</vars>

<group>
interface {{ interface | notstartswith_re(var_1) }}
  description {{ description }}
  {{ is_lag | set(True) }}
  {{ is_loopback| set(False) }}
</group>
    " [] $"list")) (VList [VList [VList [VDict [(KS $"interface", VStr $"Port-Channel11"); (KS $"is_lag", VBool true); (KS $"is_loopback", VBool false)]; VDict [(KS $"description", VStr $"Management"); (KS $"interface", VStr $"Vlan777"); (KS $"is_lag", VBool true); (KS $"is_loopback", VBool false)]]]]) = true.
Proof. vm_compute. reflexivity. Qed.

(** test/pytest/test_match_condition_fun.py test_exclude_re_inline *)
Example match_condition_fun_exclude_re_inline : is_ (at_ [] (ttp_result (fun _ => None) false sort_set ({| w_file := fun p => assoc p []; w_dir := fun p => assoc p []; w_tdir := None; w_exec := fun _ => out_of_model |}) $"" [] $"
<input load=""text"">
interface Port-Channel11
  description Storage Management
interface Loopback0
  description RID
interface Vlan777
  description Management
</input>

<group>
interface {{ interface | exclude_re(r""back.+"") }}
  description {{ description }}
</group>
    " [] $"list")) (VList [VList [VList [VDict [(KS $"interface", VStr $"Port-Channel11")]; VDict [(KS $"description", VStr $"Management"); (KS $"interface", VStr $"Vlan777")]]]]) = true.
Proof. vm_compute. reflexivity. Qed.

(** test/pytest/test_match_condition_fun.py test_exclude_inline *)
Example match_condition_fun_exclude_inline : is_ (at_ [] (ttp_result (fun _ => None) false sort_set ({| w_file := fun p => assoc p []; w_dir := fun p => assoc p []; w_tdir := None; w_exec := fun _ => out_of_model |}) $"" [] $"
<input load=""text"">
interface Port-Channel11
  description Storage Management
interface Loopback0
  description RID
interface Vlan777
  description Management
</input>

<group>
interface {{ interface | exclude(Loop) }}
  description {{ description }}
</group>
    " [] $"list")) (VList [VList [VList [VDict [(KS $"interface", VStr $"Port-Channel11")]; VDict [(KS $"description", VStr $"Management"); (KS $"interface", VStr $"Vlan777")]]]]) = true.
Proof. vm_compute. reflexivity. Qed.

(** test/pytest/test_match_condition_fun.py test_contains_inline *)
Example match_condition_fun_contains_inline : is_ (at_ [] (ttp_result (fun _ => None) false sort_set ({| w_file := fun p => assoc p []; w_dir := fun p => assoc p []; w_tdir := None; w_exec := fun _ => out_of_model |}) $"" [] $"
<input load=""text"">
interface Port-Channel11
  description Storage
interface Loopback0
  description RID
interface Port-Channel12
  description Management
interface Vlan777
  description Management
</input>

<group>
interface {{ interface | contains(Port) }}
  description {{ description }}
</group>
    " [] $"list")) (VList [VList [VList [VDict [(KS $"description", VStr $"Storage"); (KS $"interface", VStr $"Port-Channel11")]; VDict [(KS $"description", VStr $"Management"); (KS $"interface", VStr $"Port-Channel12")]]]]) = true.
Proof. vm_compute. reflexivity. Qed.

(** test/pytest/test_match_condition_fun.py test_contains_multi *)
Example match_condition_fun_contains_multi : is_ (at_ [] (ttp_result (fun _ => None) false sort_set ({| w_file := fun p => assoc p []; w_dir := fun p => assoc p []; w_tdir := None; w_exec := fun _ => out_of_model |}) $"" [] $"
<input load=""text"">
interface Port-Channel11
  description Storage
interface Loopback0
  description RID
interface Port-Channel12
  description Management
interface Vlan777
  description Management
</input>

<vars>
var_1 = ""Port""
</vars>

<group>
interface {{ interface | contains(var_1, Vlan) }}
  description {{ description }}
</group>
    " [] $"list")) (VList [VList [VList [VDict [(KS $"description", VStr $"Storage"); (KS $"interface", VStr $"Port-Channel11")]; VDict [(KS $"description", VStr $"Management"); (KS $"interface", VStr $"Port-Channel12")]; VDict [(KS $"description", VStr $"Management"); (KS $"interface", VStr $"Vlan777")]]]]) = true.
Proof. vm_compute. reflexivity. Qed.

(** test/pytest/test_match_condition_fun.py test_equal_from_vars *)
Example match_condition_fun_equal_from_vars : is_ (at_ [] (ttp_result (fun _ => None) false sort_set ({| w_file := fun p => assoc p []; w_dir := fun p => assoc p []; w_tdir := None; w_exec := fun _ => out_of_model |}) $"" [] $"
<input load=""text"">
interface Port-Channel11
  description Storage
interface Loopback0
  description RID
interface Port-Channel12
  description Management
interface Vlan777
  description Management
</input>

<vars>
var_1 = ""Port-Channel12""
</vars>

<group>
interface {{ interface | equal(var_1) }}
  description {{ description }}
</group>
    " [] $"list")) (VList [VList [VList [VDict [(KS $"description", VStr $"Management"); (KS $"interface", VStr $"Port-Channel12")]]]]) = true.
Proof. vm_compute. reflexivity. Qed.

(** test/pytest/test_match_condition_fun.py test_notequal_from_vars *)
Example match_condition_fun_notequal_from_vars : is_ (at_ [] (ttp_result (fun _ => None) false sort_set ({| w_file := fun p => assoc p []; w_dir := fun p => assoc p []; w_tdir := None; w_exec := fun _ => out_of_model |}) $"" [] $"
<input load=""text"">
interface Port-Channel11
  description Storage
interface Loopback0
  description RID
interface Port-Channel12
  description Management
interface Vlan777
  description Management
</input>

<vars>
var_1 = ""Port-Channel12""
</vars>

<group>
interface {{ interface | notequal(var_1) }}
  description {{ description }}
</group>
    " [] $"list")) (VList [VList [VList [VDict [(KS $"description", VStr $"Storage"); (KS $"interface", VStr $"Port-Channel11")]; VDict [(KS $"description", VStr $"RID"); (KS $"interface", VStr $"Loopback0")]; VDict [(KS $"description", VStr $"Management"); (KS $"interface", VStr $"Vlan777")]]]]) = true.
Proof. vm_compute. reflexivity. Qed.

(** test/pytest/test_match_functions.py test_sformat_from_vars *)
Example match_functions_sformat_from_vars : is_ (at_ [] (ttp_result (fun _ => None) false sort_set ({| w_file := fun p => assoc p []; w_dir := fun p => assoc p []; w_tdir := None; w_exec := fun _ => out_of_model |}) $"" [] $"
<input load=""text"">
interface Port-Channel11
  description Storage
interface Loopback0
  description RID
interface Port-Channel12
  description Management
interface Vlan777
  description Management
</input>

<vars>
var_1 = ""BSQ {}""
</vars>

<group>
interface {{ interface | sformat(var_1) }}
  description {{ description }}
</group>
    " [] $"list")) (VList [VList [VList [VDict [(KS $"description", VStr $"Storage"); (KS $"interface", VStr $"BSQ Port-Channel11")]; VDict [(KS $"description", VStr $"RID"); (KS $"interface", VStr $"BSQ Loopback0")]; VDict [(KS $"description", VStr $"Management"); (KS $"interface", VStr $"BSQ Port-Channel12")]; VDict [(KS $"description", VStr $"Management"); (KS $"interface", VStr $"BSQ Vlan777")]]]]) = true.
Proof. vm_compute. reflexivity. Qed.

(** test/pytest/test_match_functions.py test_multiple_joinmatches *)
Example match_functions_multiple_joinmatches : is_ (at_ [] (ttp_result (fun _ => None) false sort_set ({| w_file := fun p => assoc p []; w_dir := fun p => assoc p []; w_tdir := None; w_exec := fun _ => out_of_model |}) $"" [] $"
<vars>
hostname=""gethostname""
</vars>

<group name=""vlans*"">
Status and Counters - VLAN Information - for ports {{ Port_Number }}
{{ Tagged_VLAN | joinmatches("", "") }} {{ name | joinmatches("", "") }} | {{ ignore }} {{ ignore }} {{ ignore }} Tagged
{{ Untagged_VLAN }}                   {{ name | joinmatches("", "") }} | {{ ignore }} {{ ignore }} {{ ignore }} Untagged
{{ Hostname | set(hostname) }}
</group>   
    " [(VStr $"
SWITCH# show vlan port 2/11 detail

Status and Counters - VLAN Information - for ports 2/11

Port name:

VLAN ID Name | Status Voice Jumbo Mode

------- -------------------- + ---------- ----- ----- --------

60 ABC | Port-based No No Tagged

70 DEF | Port-based No No Tagged

101 GHIJ | Port-based No No Untagged

105 KLMNO | Port-based No No Tagged

116 PQRS | Port-based No No Tagged

117 TVU | Port-based No No Tagged

SWITCH# show vlan port 2/12 detail

Status and Counters - VLAN Information - for ports 2/12

Port name:

VLAN ID Name | Status Voice Jumbo Mode

------- -------------------- + ---------- ----- ----- --------

61 ABC | Port-based No No Tagged

71 DEF | Port-based No No Tagged

103 GHI | Port-based No No Untagged
    ", $"_all_")] $"list")) (VList [VList [VDict [(KS $"vlans", VList [VDict [(KS $"Hostname", VStr $"SWITCH"); (KS $"Port_Number", VStr $"2/11"); (KS $"Tagged_VLAN", VStr $"60, 70, 105, 116, 117"); (KS $"Untagged_VLAN", VStr $"101"); (KS $"name", VStr $"ABC, DEF, GHIJ, KLMNO, PQRS, TVU")]; VDict [(KS $"Hostname", VStr $"SWITCH"); (KS $"Port_Number", VStr $"2/12"); (KS $"Tagged_VLAN", VStr $"61, 71"); (KS $"Untagged_VLAN", VStr $"103"); (KS $"name", VStr $"ABC, DEF, GHI")]])]]]) = true.
Proof. vm_compute. reflexivity. Qed.

(** test/pytest/test_match_functions.py test_match_variable_default_set_to_list *)
Example match_functions_match_variable_default_set_to_list : is_ (at_ [] (ttp_result (fun _ => None) false sort_set ({| w_file := fun p => assoc p []; w_dir := fun p => assoc p []; w_tdir := None; w_exec := fun _ => out_of_model |}) $"" [] $"
<input load=""text"">
interface Port-Channel11
  ip address 1.1.1.1/24
interface Loopback0
</input>

<group>
interface {{ interface }}
  ip address {{ ip | default([]) }}
</group>
    " [] $"list")) (VList [VList [VList [VDict [(KS $"interface", VStr $"Port-Channel11"); (KS $"ip", VStr $"1.1.1.1/24")]; VDict [(KS $"interface", VStr $"Loopback0"); (KS $"ip", VList [])]]]]) = true.
Proof. vm_compute. reflexivity. Qed.

(** test/pytest/test_match_functions.py test_match_variable_default_for_start_regex *)
Example match_functions_match_variable_default_for_start_regex : is_ (at_ [] (ttp_result (fun _ => None) false sort_set ({| w_file := fun p => assoc p []; w_dir := fun p => assoc p []; w_tdir := None; w_exec := fun _ => out_of_model |}) $"" [] $"
<input load=""text"">
interface Port-Channel11
  description Staff ports
</input>

<group name=""ntp-1**"">
ntp server {{ server | default('Unconfigured') }}
 ntp source {{ source | default(""undefined"") }}
</group>
    " [] $"list")) (VList [VList [VDict [(KS $"ntp-1", VDict [(KS $"server", VStr $"Unconfigured"); (KS $"source", VStr $"undefined")])]]]) = true.
Proof. vm_compute. reflexivity. Qed.

(** test/pytest/test_match_functions.py test_match_variable_set_and_let_for_same_variable_with_special_chars *)
Example match_functions_match_variable_set_and_let_for_same_variable_with_special_chars : is_ (at_ [] (ttp_result (fun _ => None) false sort_set ({| w_file := fun p => assoc p []; w_dir := fun p => assoc p []; w_tdir := None; w_exec := fun _ => out_of_model |}) $"" [] $"
<input load=""text"">
interface Port-Channel11
 ip address 1.1.1.1/24
interface Loopback0
 ip address 1.1.2.1/24
 shutdown
</input>

<group>
interface {{ interface }}
 ip address {{ ip | default({""defined"": False}) }}
 shutdown {{ enabled | set(False) | let(""admin-status"", ""down"") }}
 {{ link-up-down-trap-enable | set(enabled) }}
 {{ admin-status | set(up) }}
</group>
    " [] $"list")) (VList [VList [VList [VDict [(KS $"admin-status", VStr $"up"); (KS $"interface", VStr $"Port-Channel11"); (KS $"ip", VStr $"1.1.1.1/24"); (KS $"link-up-down-trap-enable", VStr $"enabled")]; VDict [(KS $"admin-status", VStr $"down"); (KS $"enabled", VBool false); (KS $"interface", VStr $"Loopback0"); (KS $"ip", VStr $"1.1.2.1/24"); (KS $"link-up-down-trap-enable", VStr $"enabled")]]]]) = true.
Proof. vm_compute. reflexivity. Qed.

(** test/pytest/test_match_functions.py test_line_with_joinmatches *)
Example match_functions_line_with_joinmatches : is_ (at_ [] (ttp_result (fun _ => None) false sort_set ({| w_file := fun p => assoc p []; w_dir := fun p => assoc p []; w_tdir := None; w_exec := fun _ => out_of_model |}) $"" [] $"
System Description: {{ system-description | re("".+"") | joinmatches("" "") }}
{{ system-description | _line_ | joinmatches("" "") }}
Time remaining: {{ ignore }} seconds {{ _end_ }}
    " [(VStr $"
Chassis id: 12346.1234.1234
Port id: Eth1/1
Local Port id: Eth6/1
Port Description: Uplink to vrf1
System Name: switch-name-1
System Description: Cisco Nexus Operating System (NX-OS) Software 21.324(3)N2(3.12b)
TAC support: http://www.cisco.com/tac
Copyright (c) 2002-2099, Cisco Systems, Inc. All rights reserved.
Time remaining: 333 seconds
System Capabilities: B, R
Enabled Capabilities: B, R
Management Address: 1.1.1.1
Vlan ID: 111
    ", $"_all_")] $"list")) (VList [VList [VDict [(KS $"system-description", VStr $"Cisco Nexus Operating System (NX-OS) Software 21.324(3)N2(3.12b) TAC support: http://www.cisco.com/tac Copyright (c) 2002-2099, Cisco Systems, Inc. All rights reserved.")]]]) = true.
Proof. vm_compute. reflexivity. Qed.

(** test/pytest/test_misc.py test_match_vars_with_hyphen *)
Example misc_match_vars_with_hyphen : is_ (at_ [] (ttp_result (fun _ => None) false sort_set ({| w_file := fun p => assoc p []; w_dir := fun p => assoc p []; w_tdir := None; w_exec := fun _ => out_of_model |}) $"" [] $"
<input load=""text"">
interface Port-Channel11
  description Storage
interface Loopback0
  description RID
interface Port-Channel12
  description Management
interface Vlan777
  description Management
</input>

<group>
interface {{ interface-name }}
  description {{ description-bla }}
</group>
    " [] $"list")) (VList [VList [VList [VDict [(KS $"description-bla", VStr $"Storage"); (KS $"interface-name", VStr $"Port-Channel11")]; VDict [(KS $"description-bla", VStr $"RID"); (KS $"interface-name", VStr $"Loopback0")]; VDict [(KS $"description-bla", VStr $"Management"); (KS $"interface-name", VStr $"Port-Channel12")]; VDict [(KS $"description-bla", VStr $"Management"); (KS $"interface-name", VStr $"Vlan777")]]]]) = true.
Proof. vm_compute. reflexivity. Qed.

(** test/pytest/test_misc.py test_match_vars_starts_with_digit *)
Example misc_match_vars_starts_with_digit : is_ (at_ [] (ttp_result (fun _ => None) false sort_set ({| w_file := fun p => assoc p []; w_dir := fun p => assoc p []; w_tdir := None; w_exec := fun _ => out_of_model |}) $"" [] $"
<input load=""text"">
interface Port-Channel11
  description Storage
interface Loopback0
  description RID
interface Port-Channel12
  description Management
interface Vlan777
  description Management
</input>

<group>
interface {{ 77interface.name }}
  description {{ 77description.bla }}
</group>
    " [] $"list")) (VList [VList [VList [VDict [(KS $"77description.bla", VStr $"Storage"); (KS $"77interface.name", VStr $"Port-Channel11")]; VDict [(KS $"77description.bla", VStr $"RID"); (KS $"77interface.name", VStr $"Loopback0")]; VDict [(KS $"77description.bla", VStr $"Management"); (KS $"77interface.name", VStr $"Port-Channel12")]; VDict [(KS $"77description.bla", VStr $"Management"); (KS $"77interface.name", VStr $"Vlan777")]]]]) = true.
Proof. vm_compute. reflexivity. Qed.

(** test/pytest/test_misc.py test_match_vars_set_with_hyphen *)
Example misc_match_vars_set_with_hyphen : is_ (at_ [] (ttp_result (fun _ => None) false sort_set ({| w_file := fun p => assoc p []; w_dir := fun p => assoc p []; w_tdir := None; w_exec := fun _ => out_of_model |}) $"" [] $"
<input load=""text"">
interface Port-Channel11
  description Storage
interface Loopback0
  description RID
interface Port-Channel12
  description Management
  no switchport
interface Vlan777
  description Management
interface Port-Channel27
  no switchport
</input>

<group>
interface {{ interface-name }}
  description {{ description-bla | default(""Undefined"") }}
  no switchport {{ no-switchport | set(True) }}
  {{ is-shutdown | set(False) }}
</group>
    " [] $"list")) (VList [VList [VList [VDict [(KS $"description-bla", VStr $"Storage"); (KS $"interface-name", VStr $"Port-Channel11"); (KS $"is-shutdown", VBool false)]; VDict [(KS $"description-bla", VStr $"RID"); (KS $"interface-name", VStr $"Loopback0"); (KS $"is-shutdown", VBool false)]; VDict [(KS $"description-bla", VStr $"Management"); (KS $"interface-name", VStr $"Port-Channel12"); (KS $"is-shutdown", VBool false); (KS $"no-switchport", VBool true)]; VDict [(KS $"description-bla", VStr $"Management"); (KS $"interface-name", VStr $"Vlan777"); (KS $"is-shutdown", VBool false)]; VDict [(KS $"description-bla", VStr $"Undefined"); (KS $"interface-name", VStr $"Port-Channel27"); (KS $"is-shutdown", VBool false); (KS $"no-switchport", VBool true)]]]]) = true.
Proof. vm_compute. reflexivity. Qed.

(** test/pytest/test_misc.py test_groups_with_defaults_only_and_with_children_with_defaults_only *)
Example misc_groups_with_defaults_only_and_with_children_with_defaults_only : is_ (at_ [] (ttp_result (fun _ => None) false sort_set ({| w_file := fun p => assoc p []; w_dir := fun p => assoc p []; w_tdir := None; w_exec := fun _ => out_of_model |}) $"" [] $"
<input load=""text"">
device-hostame uptime is 27 weeks, 3 days, 10 hours, 46 minutes, 10 seconds
</input>

<group name=""uptime-1**"">
device-hostame uptime is {{ uptime | PHRASE }}
<group name=""child_with_default"">
 some line with {{ var1 | default(""val1"") }}
</group>
</group>

<group name=""domain"" default=""Uncknown"">
Default domain is {{ fqdn }}
</group>

<group name=""ntp-1**"">
ntp server {{ server | default('Unconfigured') }}
 ntp source {{ source | default(""undefined"") }}
<group name=""another_child_grp_with_default**"">
 npt peer {{ val2 | default(""None"") }}
<group name=""deeper_child_with_defaults"" default=""something"">
 another string {{ val5 }}
 my string {{ val4 }}
</group>
</group>
<group name=""another_child_grp_without_default"">
 npt peers {{ val3 }}
</group>
</group>

<group name=""ntp-2"">
ntp server {{ server }}
 ntp source {{ source | default(""undefined"") }}
</group>

<group name=""snmp-1"" default=""Uncknown"">
snmp community {{ community }}
snmp acl {{ acl }}
</group>


<group name=""snmp-2-with-group-output**"" default=""Uncknown"" output=""out-1"">
snmp community {{ community }}
snmp acl {{ acl }}
<group name=""snmp_child_with_defaults"" default=""None"">
 snmp source {{ ip }}
</group>
<group name=""snmp_child_without_defaults"">
 snmp community {{ comm_val }}
</group>
</group>

<output name=""out-1""/>
    " [] $"list")) (VList [VList [VList [VDict [(KS $"domain", VDict [(KS $"fqdn", VStr $"Uncknown")]); (KS $"ntp-1", VDict [(KS $"another_child_grp_with_default", VDict [(KS $"deeper_child_with_defaults", VDict [(KS $"val4", VStr $"something"); (KS $"val5", VStr $"something")]); (KS $"val2", VStr $"None")]); (KS $"server", VStr $"Unconfigured"); (KS $"source", VStr $"undefined")]); (KS $"snmp-1", VDict [(KS $"acl", VStr $"Uncknown"); (KS $"community", VStr $"Uncknown")]); (KS $"uptime-1", VDict [(KS $"child_with_default", VDict [(KS $"var1", VStr $"val1")]); (KS $"uptime", VStr $"27 weeks, 3 days, 10 hours, 46 minutes, 10 seconds")])]; VDict [(KS $"snmp-2-with-group-output", VDict [(KS $"acl", VStr $"Uncknown"); (KS $"community", VStr $"Uncknown"); (KS $"snmp_child_with_defaults", VDict [(KS $"ip", VStr $"None")])])]]]]) = true.
Proof. vm_compute. reflexivity. Qed.

(** test/pytest/test_misc.py test_child_group_do_not_start_if_no_parent_started *)
Example misc_child_group_do_not_start_if_no_parent_started : is_ (at_ [] (ttp_result (fun _ => None) false sort_set ({| w_file := fun p => assoc p []; w_dir := fun p => assoc p []; w_tdir := None; w_exec := fun _ => out_of_model |}) $"" [] $"
<group name=""ospf_processes.{{ pid }}**"">
            OSPF Router with ID ({{ local_rid }}) (Process ID {{ pid }})
            
<group name=""router_lsa*"" functions=""record('area') | del('area') | void"">
                Router Link States (Area {{ area }})

  <group set=""area"">
  LS age: {{ age }}
  Advertising Router: {{ originator_rid }}

    <group name=""ptp_peers*"">
    Link connected to: another Router (point-to-point) {{ _start_ }}
     (Link Data) Router Interface address: {{ link_data }}
    </group>
  </group>
</group>

<group name=""external_lsa"">
                Type-5 AS External Link States {{ _start_ }}

  <group>
  LS age: {{ age }}
{{ _end_ }}
  </group>
</group>

</group>
    " [(VStr $"
RP/0/RP0/CPU0:router-1#show ospf database router 

            OSPF Router with ID (10.0.1.1) (Process ID 1)

                Router Link States (Area 0.0.0.0)

  LS age: 406
  Options: (No TOS-capability, DC)
  LS Type: Router Links
  Link State ID: 10.0.1.1
  Advertising Router: 10.0.1.1
  LS Seq Number: 8000010c
  Checksum: 0x24dd
  Length: 132
   Number of Links: 9

    Link connected to: another Router (point-to-point)
     (Link ID) Neighboring Router ID: 10.0.1.4
     (Link Data) Router Interface address: 0.0.0.12
      Number of TOS metrics: 0
       TOS 0 Metrics: 1100

    Link connected to: another Router (point-to-point)
     (Link ID) Neighboring Router ID: 10.0.1.2
     (Link Data) Router Interface address: 0.0.0.10
      Number of TOS metrics: 0
       TOS 0 Metrics: 1100    
       
  Routing Bit Set on this LSA
  LS age: 1604
  Options: (No TOS-capability, DC)
  LS Type: Router Links
  Link State ID: 10.0.1.2
  Advertising Router: 10.0.1.2
  LS Seq Number: 8000010b
  Checksum: 0xdc96
  Length: 132
   Number of Links: 9

    Link connected to: another Router (point-to-point)
     (Link ID) Neighboring Router ID: 10.0.1.3
     (Link Data) Router Interface address: 0.0.0.52
      Number of TOS metrics: 0
       TOS 0 Metrics: 1100

    Link connected to: another Router (point-to-point)
     (Link ID) Neighboring Router ID: 10.0.1.4
     (Link Data) Router Interface address: 0.0.0.53
      Number of TOS metrics: 0
       TOS 0 Metrics: 1100
    ", $"_all_")] $"list")) (VList [VList [VDict [(KS $"ospf_processes", VDict [(KS $"1", VDict [(KS $"local_rid", VStr $"10.0.1.1"); (KS $"router_lsa", VList [VDict [(KS $"age", VStr $"406"); (KS $"area", VStr $"0.0.0.0"); (KS $"originator_rid", VStr $"10.0.1.1"); (KS $"ptp_peers", VList [VDict [(KS $"link_data", VStr $"0.0.0.12")]; VDict [(KS $"link_data", VStr $"0.0.0.10")]])]; VDict [(KS $"age", VStr $"1604"); (KS $"area", VStr $"0.0.0.0"); (KS $"originator_rid", VStr $"10.0.1.2"); (KS $"ptp_peers", VList [VDict [(KS $"link_data", VStr $"0.0.0.52")]; VDict [(KS $"link_data", VStr $"0.0.0.53")]])]])])])]]]) = true.
Proof. vm_compute. reflexivity. Qed.

(** test/pytest/test_misc.py test_tabs_and_spaces_mixed_within_line *)
Example misc_tabs_and_spaces_mixed_within_line : is_ (at_ [] (ttp_result (fun _ => None) false sort_set ({| w_file := fun p => assoc p []; w_dir := fun p => assoc p []; w_tdir := None; w_exec := fun _ => out_of_model |}) $"" [] $"
	 Form Factor 		: {{ form_factor }}
	 Name 			: {{ vendor }}
    " [(VStr $"
	 Form Factor 		: QSFP28
	 Name 			: FS
    ", $"_all_")] $"list")) (VList [VList [VDict [(KS $"form_factor", VStr $"QSFP28"); (KS $"vendor", VStr $"FS")]]]) = true.
Proof. vm_compute. reflexivity. Qed.

(** test/pytest/test_misc.py test_nested_group_processing_order *)
Example misc_nested_group_processing_order : is_ (at_ [] (ttp_result (fun _ => None) false sort_set ({| w_file := fun p => assoc p []; w_dir := fun p => assoc p []; w_tdir := None; w_exec := fun _ => out_of_model |}) $"" [] $"
<group name=""interfaces*"" contains=""name"">
interface {{ name }}
 description {{ description | re("".*"") }}
 mtu {{ mtu | to_int }}
 mac-address {{ mac_address }}
 arp timeout {{ arp_timeout }}
 
 <group name=""ipv4*"" method=""table"">
 ipv4 address {{ ip | _exact_ }} {{ mask }}
 </group>
 
!{{ _end_ }}
</group>
    " [(VStr $"
interface Gig123
 description foo
 mtu 1234
 ipv4 address 1.2.3.4 255.255.255.0
 arp timeout 123
 mac-address 123.123.1
!
interface Gig321
 description foo
 mtu 4321
 ipv4 address 1.2.3.5 255.255.255.0
 arp-timeout 4321
 mac-address 123.123.2
!
    ", $"_all_")] $"list")) (VList [VList [VDict [(KS $"interfaces", VList [VDict [(KS $"arp_timeout", VStr $"123"); (KS $"description", VStr $"foo"); (KS $"ipv4", VList [VDict [(KS $"ip", VStr $"1.2.3.4"); (KS $"mask", VStr $"255.255.255.0")]]); (KS $"mac_address", VStr $"123.123.1"); (KS $"mtu", VInt (1234)); (KS $"name", VStr $"Gig123")]; VDict [(KS $"description", VStr $"foo"); (KS $"ipv4", VList [VDict [(KS $"ip", VStr $"1.2.3.5"); (KS $"mask", VStr $"255.255.255.0")]]); (KS $"mac_address", VStr $"123.123.2"); (KS $"mtu", VInt (4321)); (KS $"name", VStr $"Gig321")]])]]]) = true.
Proof. vm_compute. reflexivity. Qed.

(** test/pytest/test_misc.py test_issue_98_special_char_in_match_path *)
Example misc_issue_98_special_char_in_match_path : is_ (at_ [] (ttp_result (fun _ => None) false sort_set ({| w_file := fun p => assoc p []; w_dir := fun p => assoc p []; w_tdir := None; w_exec := fun _ => out_of_model |}) $"" [] $"
<group name=""interfaces.{{ ri }}**"">
routing-instances {{ ignore }} 
    {{ ri | _start_ }} { 
    } {{ _end_ }}
</group>
" [(VStr $"
routing-instances {
    ""some_routing_instance_70\1"" {
        instance-type vrf;
    }
}
", $"_all_")] $"list")) (VList [VList [VDict [(KS $"interfaces", VDict [(KS $"""some_routing_instance_70\1""", VDict [])])]]]) = true.
Proof. vm_compute. reflexivity. Qed.

(** test/pytest/test_output_formatters.py test_csv_formatter_simple_empty_tag *)
Example output_formatters_csv_formatter_simple_empty_tag : is_ (at_ [] (ttp_result (fun _ => None) false sort_set ({| w_file := fun p => assoc p []; w_dir := fun p => assoc p []; w_tdir := None; w_exec := fun _ => out_of_model |}) $"" [] $"
<input load=""text"">
interface Port-Chanel11
  vlan 10
interface Loopback0
  vlan 20
</input>

<group>
interface {{ interface }}
  vlan {{ vlan | to_int }}
</group>

<output
format=""csv""
>
</output>
" [] $"list")) (VList [VStr $"""interface"",""vlan""
""Port-Chanel11"",""10""
""Loopback0"",""20"""]) = true.
Proof. vm_compute. reflexivity. Qed.

(** test/pytest/test_output_formatters.py test_table_formatter *)
Example output_formatters_table_formatter : is_ (at_ [] (ttp_result (fun _ => None) false sort_set ({| w_file := fun p => assoc p []; w_dir := fun p => assoc p []; w_tdir := None; w_exec := fun _ => out_of_model |}) $"" [] $"
<input load=""text"">
router bgp 65100
  neighbor 10.145.1.9
    description vic-mel-core1
  !
  neighbor 192.168.101.1
    description qld-bri-core1
</input>

<group name=""bgp_config"">
router bgp {{ bgp_as }}
 <group name=""peers"">
  neighbor {{ peer }}
    description {{ description  }}
 </group>
</group> 
    
<output 
path=""bgp_config.peers"" 
format=""table"" 
headers=""description, peer, asn""
missing=""Undefined""
/>
    " [] $"list")) (VList [VList [VList [VStr $"description"; VStr $"peer"; VStr $"asn"]; VList [VStr $"vic-mel-core1"; VStr $"10.145.1.9"; VStr $"Undefined"]; VList [VStr $"qld-bri-core1"; VStr $"192.168.101.1"; VStr $"Undefined"]]]) = true.
Proof. vm_compute. reflexivity. Qed.

(** test/pytest/test_output_formatters.py test_table_formatter_multiple_input *)
Example output_formatters_table_formatter_multiple_input : is_ (at_ [] (ttp_result (fun _ => None) false sort_set ({| w_file := fun p => assoc p []; w_dir := fun p => assoc p []; w_tdir := None; w_exec := fun _ => out_of_model |}) $"" [] $"
<input load=""text"">
interface Loopback0
 ip address 192.168.0.113/24
!
interface Vlan778
 ip address 2002::fd37/124
!
</input>

<input load=""text"">
interface Loopback10
 ip address 192.168.0.10/24
!
interface Vlan710
 ip address 2002::fd10/124
!
</input>

<group>
interface {{ interface }}
 ip address {{ ip }}/{{ mask }}
</group>

<output format=""table""/>
    " [] $"list")) (VList [VList [VList [VStr $"interface"; VStr $"ip"; VStr $"mask"]; VList [VStr $"Loopback0"; VStr $"192.168.0.113"; VStr $"24"]; VList [VStr $"Vlan778"; VStr $"2002::fd37"; VStr $"124"]; VList [VStr $"Loopback10"; VStr $"192.168.0.10"; VStr $"24"]; VList [VStr $"Vlan710"; VStr $"2002::fd10"; VStr $"124"]]]) = true.
Proof. vm_compute. reflexivity. Qed.

(** test/pytest/test_output_functions.py test_output_condition_attribute *)
Example output_functions_output_condition_attribute : is_ (at_ [] (ttp_result (fun _ => None) false sort_set ({| w_file := fun p => assoc p []; w_dir := fun p => assoc p []; w_tdir := None; w_exec := fun _ => out_of_model |}) $"" [(KS $"convert_to_csv", VBool true)] $"
<group>
interface {{ interface }}
 description {{ description }}
 encapsulation dot1q {{ vlan }}
 ip address {{ ip }} {{ mask }}
</group>

<output condition=""convert_to_csv, True"" format=""csv""/>
    " [(VStr $"
interface GigabitEthernet1/3.251
 description Customer #32148
 encapsulation dot1q 251
 ip address 172.16.33.10 255.255.255.128
 shutdown
!
interface GigabitEthernet1/4
 description vCPEs access control
 ip address 172.16.33.10 255.255.255.128
    ", $"_all_")] $"list")) (VList [VStr $"""interface"",""ip"",""mask"",""vlan""
""GigabitEthernet1/3.251"",""172.16.33.10"",""255.255.255.128"",""251""
""GigabitEthernet1/4"",""172.16.33.10"",""255.255.255.128"","""""]) = true.
Proof. vm_compute. reflexivity. Qed.

(** test/pytest/test_regexes.py test_multiple_inline_regexes *)
Example regexes_multiple_inline_regexes : is_ (at_ [] (ttp_result (fun _ => None) false sort_set ({| w_file := fun p => assoc p []; w_dir := fun p => assoc p []; w_tdir := None; w_exec := fun _ => out_of_model |}) $"" [] $"
<input load=""text"">
Protocol  Address     Age (min)  Hardware Addr   Type   Interface
Internet  10.12.13.1        98   0950.5785.5cd1  ARPA   FastEthernet2.13
Internet  10.12.13.2        98   0950.5785.5cd2  ARPA   Loopback0
Internet  10.12.13.3       131   0150.7685.14d5  ARPA   GigabitEthernet2.13
Internet  10.12.13.4       198   0950.5C8A.5c41  ARPA   GigabitEthernet2.17
</input>

<vars>
INTF_RE = r""GigabitEthernet\S+|Fast\S+""
</vars>

<group name=""arp_test"">
Internet  {{ ip }}  {{ age }}   {{ mac }}  ARPA   {{ interface | re(r""GigabitEthernet\S+"") | re(r""Fast\S+"") }}
</group>
" [] $"list")) (VList [VList [VDict [(KS $"arp_test", VList [VDict [(KS $"age", VStr $"98"); (KS $"interface", VStr $"FastEthernet2.13"); (KS $"ip", VStr $"10.12.13.1"); (KS $"mac", VStr $"0950.5785.5cd1")]; VDict [(KS $"age", VStr $"131"); (KS $"interface", VStr $"GigabitEthernet2.13"); (KS $"ip", VStr $"10.12.13.3"); (KS $"mac", VStr $"0150.7685.14d5")]; VDict [(KS $"age", VStr $"198"); (KS $"interface", VStr $"GigabitEthernet2.17"); (KS $"ip", VStr $"10.12.13.4"); (KS $"mac", VStr $"0950.5C8A.5c41")]])]]]) = true.
Proof. vm_compute. reflexivity. Qed.

(** test/pytest/test_structure.py test_list_structure *)
Example structure_list_structure : is_ (at_ [] (ttp_result (fun _ => None) false sort_set ({| w_file := fun p => assoc p []; w_dir := fun p => assoc p []; w_tdir := None; w_exec := fun _ => out_of_model |}) $"" [] $"
<input load=""text"">
interface Lo0
 ip address 192.168.0.1 32
!
interface Lo1
 ip address 1.1.1.1 32
</input>

<input load=""text"">
interface Lo2
 ip address 2.2.2.2 32
!
interface Lo3
 ip address 3.3.3.3 32
</input>

<group>
interface {{ interface }}
 ip address {{ ip }} {{ mask }}
</group>
" [] $"list")) (VList [VList [VList [VDict [(KS $"interface", VStr $"Lo0"); (KS $"ip", VStr $"192.168.0.1"); (KS $"mask", VStr $"32")]; VDict [(KS $"interface", VStr $"Lo1"); (KS $"ip", VStr $"1.1.1.1"); (KS $"mask", VStr $"32")]]; VList [VDict [(KS $"interface", VStr $"Lo2"); (KS $"ip", VStr $"2.2.2.2"); (KS $"mask", VStr $"32")]; VDict [(KS $"interface", VStr $"Lo3"); (KS $"ip", VStr $"3.3.3.3"); (KS $"mask", VStr $"32")]]]]) = true.
Proof. vm_compute. reflexivity. Qed.

(** test/pytest/test_structure.py test_dictionary_structure *)
Example structure_dictionary_structure : is_ (at_ [] (ttp_result (fun _ => None) false sort_set ({| w_file := fun p => assoc p []; w_dir := fun p => assoc p []; w_tdir := None; w_exec := fun _ => out_of_model |}) $"" [] $"
<template>

<template name=""first"">
<input load=""text"">
interface Lo0
 ip address 124.171.238.50 32
!
interface Lo1
 ip address 1.1.1.1 32
</input>

<group>
interface {{ interface }}
 ip address {{ ip }} {{ mask }}
</group>

</template>

<template name=""second"">
<input load=""text"">
interface Lo2
 ip address 124.171.238.50 32
!
interface Lo3
 ip address 2.2.2.2 32
</input>

<group>
interface {{ interface }}
 ip address {{ ip }} {{ mask }}
</group>
</template>
</template>
" [] $"dictionary")) (VDict [(KS $"first", VList [VList [VDict [(KS $"interface", VStr $"Lo0"); (KS $"ip", VStr $"124.171.238.50"); (KS $"mask", VStr $"32")]; VDict [(KS $"interface", VStr $"Lo1"); (KS $"ip", VStr $"1.1.1.1"); (KS $"mask", VStr $"32")]]]); (KS $"second", VList [VList [VDict [(KS $"interface", VStr $"Lo2"); (KS $"ip", VStr $"124.171.238.50"); (KS $"mask", VStr $"32")]; VDict [(KS $"interface", VStr $"Lo3"); (KS $"ip", VStr $"2.2.2.2"); (KS $"mask", VStr $"32")]]])]) = true.
Proof. vm_compute. reflexivity. Qed.

(** test/pytest/test_structure.py test_flat_list_structure *)
Example structure_flat_list_structure : is_ (at_ [] (ttp_result (fun _ => None) false sort_set ({| w_file := fun p => assoc p []; w_dir := fun p => assoc p []; w_tdir := None; w_exec := fun _ => out_of_model |}) $"" [] $"
<input load=""text"">
interface Lo0
 ip address 192.168.0.1 32
!
interface Lo1
 ip address 1.1.1.1 32
</input>

<input load=""text"">
interface Lo2
 ip address 2.2.2.2 32
!
interface Lo3
 ip address 3.3.3.3 32
</input>

<group>
interface {{ interface }}
 ip address {{ ip }} {{ mask }}
</group>
" [] $"flat_list")) (VList [VDict [(KS $"interface", VStr $"Lo0"); (KS $"ip", VStr $"192.168.0.1"); (KS $"mask", VStr $"32")]; VDict [(KS $"interface", VStr $"Lo1"); (KS $"ip", VStr $"1.1.1.1"); (KS $"mask", VStr $"32")]; VDict [(KS $"interface", VStr $"Lo2"); (KS $"ip", VStr $"2.2.2.2"); (KS $"mask", VStr $"32")]; VDict [(KS $"interface", VStr $"Lo3"); (KS $"ip", VStr $"3.3.3.3"); (KS $"mask", VStr $"32")]]) = true.
Proof. vm_compute. reflexivity. Qed.

(** test/pytest/test_ttp_parser_methods.py test_default_behaviour_with_named_templates *)
Example ttp_parser_methods_default_behaviour_with_named_templates : is_ (at_ [] (ttp_result (fun _ => None) false sort_set ({| w_file := fun p => assoc p []; w_dir := fun p => assoc p []; w_tdir := None; w_exec := fun _ => out_of_model |}) $"" [] $"
<template name=""services"" results=""per_template"">
<group name=""{{ name }}.{{ proto }}"" method=""table"">
{{ ignore(r""\s+"") }}{{ name }}  {{ proto }}  {{ port | DIGIT }}
{{ ignore(r""\s+"") }}            {{ proto }}  {{ port | DIGIT }}
</group>
</template>
" [(VStr $"
    # show service
     Name                         Protocol     Dst-Port/Type
     DISCARD                           UDP                 9
     DNS                                   UDP                53  
                                              TCP                 53
      ECHO                               UDP                   7 
", $"_all_")] $"dictionary")) (VDict [(KS $"services", VDict [(KS $"DISCARD", VDict [(KS $"UDP", VDict [(KS $"port", VStr $"9")])]); (KS $"DNS", VDict [(KS $"TCP", VDict [(KS $"port", VStr $"53")]); (KS $"UDP", VDict [(KS $"port", VStr $"53")])]); (KS $"ECHO", VDict [(KS $"UDP", VDict [(KS $"port", VStr $"7")])])])]) = true.
Proof. vm_compute. reflexivity. Qed.
