(** * Conformance1: the project's own tests, run by the model.
    Each example takes template, data and expected result from a test in /repo/test/pytest (generated by
    tools/conform.py) and checks that the model of the complete program (Run.v) computes this result.  These are tests of the
    model, not proofs about it. *)
From Verif Require Import PyBase Regex Results Template Attributes FormRegex MatchVar MatchFuncs GroupFuncs Parser Compile FuncTable Session Files Inputs Load Run.
Local Open Scope string_scope.
Local Open Scope list_scope.
Definition is_ (r : res val) (v : val) : bool := match r with Ok x => py_eq x v | Raise _ => false end.
(** [result[i][j]...] *)
Fixpoint at_ (p : list nat) (r : res val) : res val :=
  match p with [] => r | i :: t => at_ t (do v <- r; match v with VList l => match nth_error l i with Some x => Ok x | None => Raise IndexError end | _ => Raise TypeError end) end.

(** test/pytest/test_anonymous_group.py test_anonymous_group_with_vars *)
Example anonymous_group_anonymous_group_with_vars : is_ (at_ [] (ttp_result (fun _ => None) false sort_set ({| w_file := fun p => assoc p []; w_dir := fun p => assoc p []; w_tdir := None; w_exec := fun _ => out_of_model |}) $"" [] $"
<input load=""text"">
interface Port-Chanel11
  description Storage Management
interface Loopback0
  description RID
</input>

<vars name=""my.var.s"">
a = 1
b = 2
</vars>

<group>
interface {{ interface }}
  description {{ description | ORPHRASE }}
</group>
    " [] $"list")) (VList [VList [VList [VDict [(KS $"description", VStr $"Storage Management"); (KS $"interface", VStr $"Port-Chanel11")]; VDict [(KS $"description", VStr $"RID"); (KS $"interface", VStr $"Loopback0")]; VDict [(KS $"my", VDict [(KS $"var", VDict [(KS $"s", VDict [(KS $"a", VInt (1)); (KS $"b", VInt (2))])])])]]]]) = true.
Proof. vm_compute. reflexivity. Qed.

(** test/pytest/test_anonymous_group.py test_anonymous_group_with_per_template_mode *)
Example anonymous_group_anonymous_group_with_per_template_mode : is_ (at_ [] (ttp_result (fun _ => None) false sort_set ({| w_file := fun p => assoc p []; w_dir := fun p => assoc p []; w_tdir := None; w_exec := fun _ => out_of_model |}) $"" [] $"
<template results=""per_template"">
<group void="""">
hostname {{ hostname | record(hostname_abc) }}
</group>

<group>
interface {{ interface }}
 description {{ description | ORPHRASE }}
 ip address {{ ip }} {{ mask }}
 {{ hostname | set(hostname_abc) }}
</group>
</template>
    " [(VStr $"
hostname r2
!
interface GigabitEthernet1
 vrf forwarding MGMT
 ip address 10.123.89.55 255.255.255.0
    ", $"_root_template_"); (VStr $"
hostname r1
!
interface GigabitEthernet1
 description some info
 vrf forwarding MGMT
 ip address 10.123.89.56 255.255.255.0
interface GigabitEthernet2
 ip address 10.123.89.55 255.255.255.0
    ", $"_root_template_")] $"list")) (VList [VList [VDict [(KS $"hostname", VStr $"r2"); (KS $"interface", VStr $"GigabitEthernet1"); (KS $"ip", VStr $"10.123.89.55"); (KS $"mask", VStr $"255.255.255.0")]; VDict [(KS $"description", VStr $"some info"); (KS $"hostname", VStr $"r1"); (KS $"interface", VStr $"GigabitEthernet1"); (KS $"ip", VStr $"10.123.89.56"); (KS $"mask", VStr $"255.255.255.0")]; VDict [(KS $"hostname", VStr $"r1"); (KS $"interface", VStr $"GigabitEthernet2"); (KS $"ip", VStr $"10.123.89.55"); (KS $"mask", VStr $"255.255.255.0")]]]) = true.
Proof. vm_compute. reflexivity. Qed.

(** test/pytest/test_answers_and_docs.py test_issue_20_answer *)
Example answers_and_docs_issue_20_answer : is_ (at_ [] (ttp_result (fun _ => None) false sort_set ({| w_file := fun p => assoc p []; w_dir := fun p => assoc p []; w_tdir := None; w_exec := fun _ => out_of_model |}) $"" [] $"
<template name=""mcast"" results=""per_template"">
<group name=""mcast_entries.{{ overlay_src }}"">
({{ overlay_src | _start_ | replace(""*"", ""'*'"")}}, {{ overlay_grp | IP }})
({{ overlay_src | _start_ | IP }}, {{ overlay_grp | IP }}), {{ entry_uptime }}/{{ entry_state_or_timer }}, flags: {{ entry_flags }}
  Incoming interface: {{ incoming_intf }}, RPF nbr {{ rpf_neighbor }}
    <group name=""oil_entries*"">
    {{ outgoing_intf }}, ({{ underlay_src | IP }}, {{ underlay_grp | IP }}), Forward/Sparse, {{ oil_uptime }}/{{ oil_state_or_timer}}  
    </group>
</group>
</template>
" [(VStr $"
(*, 239.100.100.100)    
    LISP0.4200, (192.2.101.65, 232.0.3.1), Forward/Sparse, 1d18h/stopped
    LISP0.4201, (192.2.101.70, 232.0.3.1), Forward/Sparse, 2d05h/stopped

(192.2.31.3, 239.100.100.100), 6d20h/00:02:23, flags: FT
  Incoming interface: Vlan1029, RPF nbr 0.0.0.0
  Outgoing interface list:
    LISP0.4100, (192.2.101.70, 232.0.3.1), Forward/Sparse, 1d18h/stopped

", $"mcast")] $"dictionary")) (VDict [(KS $"mcast", VDict [(KS $"mcast_entries", VDict [(KS $"'*'", VDict [(KS $"oil_entries", VList [VDict [(KS $"oil_state_or_timer", VStr $"stopped"); (KS $"oil_uptime", VStr $"1d18h"); (KS $"outgoing_intf", VStr $"LISP0.4200"); (KS $"underlay_grp", VStr $"232.0.3.1"); (KS $"underlay_src", VStr $"192.2.101.65")]; VDict [(KS $"oil_state_or_timer", VStr $"stopped"); (KS $"oil_uptime", VStr $"2d05h"); (KS $"outgoing_intf", VStr $"LISP0.4201"); (KS $"underlay_grp", VStr $"232.0.3.1"); (KS $"underlay_src", VStr $"192.2.101.70")]]); (KS $"overlay_grp", VStr $"239.100.100.100")]); (KS $"192.2.31.3", VDict [(KS $"entry_flags", VStr $"FT"); (KS $"entry_state_or_timer", VStr $"00:02:23"); (KS $"entry_uptime", VStr $"6d20h"); (KS $"incoming_intf", VStr $"Vlan1029"); (KS $"oil_entries", VList [VDict [(KS $"oil_state_or_timer", VStr $"stopped"); (KS $"oil_uptime", VStr $"1d18h"); (KS $"outgoing_intf", VStr $"LISP0.4100"); (KS $"underlay_grp", VStr $"232.0.3.1"); (KS $"underlay_src", VStr $"192.2.101.70")]]); (KS $"overlay_grp", VStr $"239.100.100.100"); (KS $"rpf_neighbor", VStr $"0.0.0.0")])])])]) = true.
Proof. vm_compute. reflexivity. Qed.

(** test/pytest/test_answers_and_docs.py test_answer_4 *)
Example answers_and_docs_answer_4 : is_ (at_ [] (ttp_result (fun _ => None) false sort_set ({| w_file := fun p => assoc p []; w_dir := fun p => assoc p []; w_tdir := None; w_exec := fun _ => out_of_model |}) $"" [] $"
<template name=""VIP_cfg"" results=""per_template"">
<group name=""{{ vip }}"">
/c/slb/virt {{ virt_seq | DIGIT }}
    dis {{ config_state | set(""dis"") }}
    ipver {{ ipver}}
    vip {{ vip }}
    rtsrcmac {{ rtsrcmac }}
    vname ""{{ vip_name | ORPHRASE }}""
    
<group name=""services.{{ port }}"" contains=""dbind, pbind"">
/c/slb/virt 12/service {{ port | DIGIT }} {{ proto | exclude(ssl) }}
    group {{group_seq }}
    rport {{ real_port }}
    pbind {{ pbind }}
    dbind {{ dbind }}
    xforward {{ xforward }}
    httpmod {{ httpmod }}
</group>    

<group name=""ssl_profile"">
/c/slb/virt {{ virt_seq }}/service 443 https/ssl
    srvrcert cert {{ ssl_server_cert }}
    sslpol {{ ssl_profile }}    
    {{ ssl | set(""https/ssl"") }}
</group>   

</group>  
</template> 
    " [(VStr $"
/c/slb/virt 12
    dis
    ipver v4
    vip 1.1.1.1
    rtsrcmac ena
    vname ""my name""
/c/slb/virt 12/service 443 https
    group 15
    rport 443
    pbind clientip
    dbind forceproxy
/c/slb/virt 12/service 443 https/http
    xforward ena
    httpmod hsts_insert
/c/slb/virt 12/service 443 https/ssl
    srvrcert cert certname
    sslpol ssl-Policy
/c/slb/virt 12/service 80 http
    group 15
    rport 80
    pbind clientip
    dbind forceproxy
/c/slb/virt 12/service 80 http/http
    xforward ena
    
/c/slb/virt 14
    dis
    ipver v4
    vip 1.1.4.4
    rtsrcmac ena
    vname ""my name2""
    ", $"_all_")] $"dictionary")) (VDict [(KS $"VIP_cfg", VDict [(KS $"1.1.1.1", VDict [(KS $"config_state", VStr $"dis"); (KS $"ipver", VStr $"v4"); (KS $"rtsrcmac", VStr $"ena"); (KS $"services", VDict [(KS $"443", VDict [(KS $"dbind", VStr $"forceproxy"); (KS $"group_seq", VStr $"15"); (KS $"pbind", VStr $"clientip"); (KS $"proto", VStr $"https"); (KS $"real_port", VStr $"443")]); (KS $"80", VDict [(KS $"dbind", VStr $"forceproxy"); (KS $"group_seq", VStr $"15"); (KS $"pbind", VStr $"clientip"); (KS $"proto", VStr $"http"); (KS $"real_port", VStr $"80")])]); (KS $"ssl_profile", VDict [(KS $"ssl", VStr $"https/ssl"); (KS $"ssl_profile", VStr $"ssl-Policy"); (KS $"ssl_server_cert", VStr $"certname"); (KS $"virt_seq", VStr $"12")]); (KS $"vip_name", VStr $"my name"); (KS $"virt_seq", VStr $"12")]); (KS $"1.1.4.4", VDict [(KS $"config_state", VStr $"dis"); (KS $"ipver", VStr $"v4"); (KS $"rtsrcmac", VStr $"ena"); (KS $"vip_name", VStr $"my name2"); (KS $"virt_seq", VStr $"14")])])]) = true.
Proof. vm_compute. reflexivity. Qed.

(** test/pytest/test_answers_and_docs.py test_github_issue_22 *)
Example answers_and_docs_github_issue_22 : is_ (at_ [] (ttp_result (fun _ => None) false sort_set ({| w_file := fun p => assoc p []; w_dir := fun p => assoc p []; w_tdir := None; w_exec := fun _ => out_of_model |}) $"" [] $"{{ ignore(r""\s+"") }}ip address {{ ip_address }} 255.255.255.255" [(VStr $"
interface Loopback0
 description Fabric Node Router ID
 ip address 192.2.101.70 255.255.255.255
 ip pim sparse-mode
 ip router isis 
 clns mtu 1400
end
interface Loopback0
 description Fabric Node Router ID
 ip address 192.2.101.71 255.255.255.255
 ip pim sparse-mode
 ip router isis 
 clns mtu 1400
end
    ", $"_all_")] $"list")) (VList [VList [VList [VDict [(KS $"ip_address", VStr $"192.2.101.70")]; VDict [(KS $"ip_address", VStr $"192.2.101.71")]]]]) = true.
Proof. vm_compute. reflexivity. Qed.

(** test/pytest/test_answers_and_docs.py test_reddit_answer_1 *)
Example answers_and_docs_reddit_answer_1 : is_ (at_ [] (ttp_result (fun _ => None) false sort_set ({| w_file := fun p => assoc p []; w_dir := fun p => assoc p []; w_tdir := None; w_exec := fun _ => out_of_model |}) $"" [] $"
<vars>
hostname=""gethostname""
</vars>

<group name=""vlans*"">
Status and Counters - VLAN Information - for ports {{ Port_Number }}
{{ Tagged_VLAN | joinmatches("" "") }} {{ ignore }} | {{ ignore }} {{ ignore }} {{ ignore }} Tagged
{{ Untagged_VLAN }}                  {{ ignore }} | {{ ignore }} {{ ignore }} {{ ignore }} Untagged
{{ Hostname | set(hostname) }}
</group>   

<output>
format = ""csv""
path = ""vlans""
headers = ""Hostname, Port_Number, Untagged_VLAN, Tagged_VLAN""
</output>
    " [(VStr $"
SWITCH# show vlan port 2/11 detail

Status and Counters - VLAN Information - for ports 2/11

Port name:

VLAN ID Name | Status Voice Jumbo Mode

------- -------------------- + ---------- ----- ----- --------

60 ABC | Port-based No No Tagged

70 DEF | Port-based No No Tagged

101 GHIJ | Port-based No No Untagged

105 KLMNO | Port-based No No Tagged

116 PQRS | Port-based No No Tagged

117 TVU | Port-based No No Tagged

SWITCH# show vlan port 2/12 detail

Status and Counters - VLAN Information - for ports 2/12

Port name:

VLAN ID Name | Status Voice Jumbo Mode

------- -------------------- + ---------- ----- ----- --------

61 ABC | Port-based No No Tagged

71 DEF | Port-based No No Tagged

103 GHI | Port-based No No Untagged
    ", $"_all_")] $"list")) (VList [VStr $"""Hostname"",""Port_Number"",""Untagged_VLAN"",""Tagged_VLAN""
""SWITCH"",""2/11"",""101"",""60 70 105 116 117""
""SWITCH"",""2/12"",""103"",""61 71"""]) = true.
Proof. vm_compute. reflexivity. Qed.

(** test/pytest/test_answers_and_docs.py test_slack_answer_1 *)
Example answers_and_docs_slack_answer_1 : is_ (at_ [] (ttp_result (fun _ => None) false sort_set ({| w_file := fun p => assoc p []; w_dir := fun p => assoc p []; w_tdir := None; w_exec := fun _ => out_of_model |}) $"" [] $"
<group name=""versions"">
Hardware {{ _start_ }}
Firmware {{ _start_ }}
{{ version | PHRASE | let(""type"", ""firmware"") }}
{{ version | exclude(""---"") | exclude(""Vers"") | let(""type"", ""hardware"") }}
{{ _end_ }}
</group>    
    " [(VStr $"
Firmware
Version
----------------
02.1.1 Build 002

Hardware
Version
----------------
V2R4
    ", $"_all_")] $"flat_list")) (VList [VDict [(KS $"versions", VList [VDict [(KS $"type", VStr $"firmware"); (KS $"version", VStr $"02.1.1 Build 002")]; VDict [(KS $"type", VStr $"hardware"); (KS $"version", VStr $"V2R4")]])]]) = true.
Proof. vm_compute. reflexivity. Qed.

(** test/pytest/test_answers_and_docs.py test_github_issue_34_answer *)
Example answers_and_docs_github_issue_34_answer : is_ (at_ [] (ttp_result (fun _ => None) false sort_set ({| w_file := fun p => assoc p []; w_dir := fun p => assoc p []; w_tdir := None; w_exec := fun _ => out_of_model |}) $"" [] $"
<input load=""text"">
Hi World
</input>

<group name='demo'>
<group name='audiences*'>
Hello {{ audience | default([]) }}
</group>
</group>
    " [] $"list")) (VList [VList [VDict [(KS $"demo", VDict [(KS $"audiences", VList [VDict [(KS $"audience", VList [])]])])]]]) = true.
Proof. vm_compute. reflexivity. Qed.

(** test/pytest/test_answers_and_docs.py test_issue_36 *)
Example answers_and_docs_issue_36 : is_ (at_ [] (ttp_result (fun _ => None) false sort_set ({| w_file := fun p => assoc p []; w_dir := fun p => assoc p []; w_tdir := None; w_exec := fun _ => out_of_model |}) $"" [] $"
<input load=""text"">
ip access-list standard 42
 10 remark machine_A
 10 permit 192.168.200.162
 20 remark machine_B
 20 permit 192.168.200.149
 30 deny   any log
ip access-list standard 98
 10 permit 10.10.10.1
 20 remark toto
 20 permit 30.30.30.1
 30 permit 30.30.30.0 0.0.0.255
ip access-list standard 99
 10 permit 10.20.30.40 log
 20 permit 20.30.40.1 log
 30 remark DEVICE - SNMP RW
 30 permit 50.50.50.128 0.0.0.127
 40 permit 60.60.60.64 0.0.0.63
ip access-list extended 199
 10 remark COLLECTOR - SNMP
 10 permit ip 70.70.70.0 0.0.0.255 any
 20 remark RETURN - Back
 20 permit ip 80.80.80.0 0.0.0.127 any
 30 remark VISUALIZE
 30 permit ip host 90.90.90.138 any
</input>

<group name=""ip.{{ acl_type }}.{{ acl_name }}"">
ip access-list {{ acl_type }} {{ acl_name }}
 <group name=""{{ entry_id }}*"" method=""table"">
 {{ entry_id }} remark {{ remark_name | re("".+"") | let(""action"", ""remark"") }}
 {{ entry_id }} {{ action }} {{ src_host }}
 {{ entry_id }} {{ action }} {{ src_host | let(""log"", ""log"") }} log
 {{ entry_id }} {{ action }} {{ protocol }} host {{ src_host | let(""dest_any"", ""any"") }} any
 {{ entry_id }} {{ action }} {{ protocol }} {{ src_ntw | let(""dest_any"", ""any"") }} {{ src_wildcard | IP }} any
 {{ entry_id }} {{ action }} {{ src_ntw }} {{ src_wildcard | IP }}
 </group>
</group>
    " [] $"list")) (VList [VList [VDict [(KS $"ip", VDict [(KS $"extended", VDict [(KS $"199", VDict [(KS $"10", VList [VDict [(KS $"action", VStr $"remark"); (KS $"remark_name", VStr $"COLLECTOR - SNMP")]; VDict [(KS $"action", VStr $"permit"); (KS $"dest_any", VStr $"any"); (KS $"protocol", VStr $"ip"); (KS $"src_ntw", VStr $"70.70.70.0"); (KS $"src_wildcard", VStr $"0.0.0.255")]]); (KS $"20", VList [VDict [(KS $"action", VStr $"remark"); (KS $"remark_name", VStr $"RETURN - Back")]; VDict [(KS $"action", VStr $"permit"); (KS $"dest_any", VStr $"any"); (KS $"protocol", VStr $"ip"); (KS $"src_ntw", VStr $"80.80.80.0"); (KS $"src_wildcard", VStr $"0.0.0.127")]]); (KS $"30", VList [VDict [(KS $"action", VStr $"remark"); (KS $"remark_name", VStr $"VISUALIZE")]; VDict [(KS $"action", VStr $"permit"); (KS $"dest_any", VStr $"any"); (KS $"protocol", VStr $"ip"); (KS $"src_host", VStr $"90.90.90.138")]])])]); (KS $"standard", VDict [(KS $"42", VDict [(KS $"10", VList [VDict [(KS $"action", VStr $"remark"); (KS $"remark_name", VStr $"machine_A")]; VDict [(KS $"action", VStr $"permit"); (KS $"src_host", VStr $"192.168.200.162")]]); (KS $"20", VList [VDict [(KS $"action", VStr $"remark"); (KS $"remark_name", VStr $"machine_B")]; VDict [(KS $"action", VStr $"permit"); (KS $"src_host", VStr $"192.168.200.149")]]); (KS $"30", VList [VDict [(KS $"action", VStr $"deny"); (KS $"log", VStr $"log"); (KS $"src_host", VStr $"any")]])]); (KS $"98", VDict [(KS $"10", VList [VDict [(KS $"action", VStr $"permit"); (KS $"src_host", VStr $"10.10.10.1")]]); (KS $"20", VList [VDict [(KS $"action", VStr $"remark"); (KS $"remark_name", VStr $"toto")]; VDict [(KS $"action", VStr $"permit"); (KS $"src_host", VStr $"30.30.30.1")]]); (KS $"30", VList [VDict [(KS $"action", VStr $"permit"); (KS $"src_ntw", VStr $"30.30.30.0"); (KS $"src_wildcard", VStr $"0.0.0.255")]])]); (KS $"99", VDict [(KS $"10", VList [VDict [(KS $"action", VStr $"permit"); (KS $"log", VStr $"log"); (KS $"src_host", VStr $"10.20.30.40")]]); (KS $"20", VList [VDict [(KS $"action", VStr $"permit"); (KS $"log", VStr $"log"); (KS $"src_host", VStr $"20.30.40.1")]]); (KS $"30", VList [VDict [(KS $"action", VStr $"remark"); (KS $"remark_name", VStr $"DEVICE - SNMP RW")]; VDict [(KS $"action", VStr $"permit"); (KS $"src_ntw", VStr $"50.50.50.128"); (KS $"src_wildcard", VStr $"0.0.0.127")]]); (KS $"40", VList [VDict [(KS $"action", VStr $"permit"); (KS $"src_ntw", VStr $"60.60.60.64"); (KS $"src_wildcard", VStr $"0.0.0.63")]])])])])]]]) = true.
Proof. vm_compute. reflexivity. Qed.

(** test/pytest/test_answers_and_docs.py test_github_issue_37_cleaned_data_template *)
Example answers_and_docs_github_issue_37_cleaned_data_template : is_ (at_ [] (ttp_result (fun _ => None) false sort_set ({| w_file := fun p => assoc p []; w_dir := fun p => assoc p []; w_tdir := None; w_exec := fun _ => out_of_model |}) $"" [] $"
<group name=""service"">
    service {{ ignore }}
    <group name=""epipe.{{ service_id }}""  default=""none"">
        epipe {{ service_id }} customer {{ customer_id }} create
            description ""{{ description | ORPHRASE }}""
            service-mtu {{ service_mtu }}
            service-name ""{{ service_name | ORPHRASE }}""
        <group name=""endpoint""  default=""none"">
            endpoint {{ endpoint }} create
                revert-time {{ revert_time }}
            exit {{ _end_ }}
        </group>     
        <group name=""sap.{{ sap_id }}""  default=""none"">
            sap {{ sap_id | resub(r""\*"", ""qinq"") | ORPHRASE }} create
                description ""{{ description | ORPHRASE }}""
                multi-service-site ""{{ mss_name }}""
            <group name=""ingress"">
                ingress {{ _start_ }}
                    qos {{ sap_ingress | default(""1"") }}                 
                    scheduler-policy {{ scheduler_policy | default(""none"")}}
                exit {{ _end_ }}
            </group>
            <group name=""egress"">
                egress {{ _start_ }}
                    scheduler-policy {{ scheduler_policy | default(""none"") }}
                    qos {{ sap_egress | default(""1)"") }}
                exit {{ _end_ }}
            </group>
                no shutdown {{ state | set(""enabled"") | default(""disabled"") }}
            exit {{ _end_ }}
        </group>
        <group name=""pwr_sdp.{{pwr_spoke_sdp_id}}**"" default=""none""> 
            spoke-sdp {{ pwr_spoke_sdp_id }}:{{vc_id }} endpoint {{ endpoint }} create             
                precedence {{ precedence | default(""default_precedence"") }}
                no shutdown {{ state | set(""enabled"") | default(""disabled"") }}
            exit {{ _end_ }}
        </group> 
        <group name=""regular_sdp.{{r_spoke_sdp_id}}**"" default=""none""> 
            spoke-sdp {{ r_spoke_sdp_id }}:{{vc_id }} create             
                no shutdown {{ state | set(""enabled"") | default(""disabled"") }}
            exit {{ _end_ }}
        </group> 
            no shutdown {{ state | set(""enabled"") | default(""disabled"") }}
        exit {{ _end_ }}
    </group>
    exit {{ _end_ }}
</group>
    " [(VStr $"
    service foo
        epipe 103076 customer 160 create
            description ""vf=EWL:cn=TATA_COM:tl=2C02495918:st=act:""
            service-mtu 1588
            service-name ""EPIPE service-103076 DKTN08a-D0105 (63.130.108.41)""
            sap 1/2/12:20.* create
                description ""vf=EWL:cn=TATA_COM:tl=2C02495890:st=act:""
                multi-service-site ""TATA_VSNL_STRAT_A206_LAN10""
                ingress
                    queue-override
                        queue 1 create
                            cbs default
                            mbs 40 kilobytes
                            rate 10000 cir 10000
                        exit
                    exit
                exit
                egress
                    queue-override
                        queue 1 create
                            cbs default
                            mbs 40 kilobytes
                            rate 10000 cir 10000
                        exit
                    exit
                exit
                accounting-policy 4
                no shutdown
            exit
            spoke-sdp 8051:103076 create
                no shutdown
            exit
            no shutdown
        exit
        epipe 103206 customer 1904 create
            description ""vf=1273:cn=skanska:tl=3C02407455:st=act:no='SKANSKA UK PLC Stepney Green E1 3DG'""
            service-mtu 1988
            service-name ""EPIPE service-103206 DKTN08a-D0105 (63.130.108.41)""
            sap 2/2/3:401.100 create
                description ""vf=1273:cn=skanska:tl=3C02407455:st=act:no='SKANSKA UK PLC Stepney Green E1 3DG'""
                multi-service-site ""SKANSKA_E13DG_A825_LAN1""
                ingress
                    qos 11010
                    queue-override
                        queue 1 create
                            cbs default
                            mbs 1188 kilobytes
                            rate max cir 47500
                        exit
                        queue 3 create
                            cbs default
                            mbs 63 kilobytes
                            rate max cir 2500
                        exit
                    exit
                exit
                egress
                    qos 11010
                    queue-override
                        queue 1 create
                            cbs default
                            mbs 1188 kilobytes
                            rate max cir 47500
                        exit
                        queue 3 create
                            cbs default
                            mbs 63 kilobytes
                            rate max cir 2500
                        exit
                    exit
                exit
                collect-stats
                accounting-policy 4
                no shutdown
            exit
            spoke-sdp 8035:103206 create
                no shutdown
            exit
            no shutdown
        exit
        epipe 103256 customer 160 create
            description ""vf=EWL:cn=TATA_COMM:tl=2C02490189:st=act:""
            service-mtu 1988
            service-name ""EPIPE service-103256 DKTN08a-D0105 (63.130.108.41)""
            sap 1/2/12:15.* create
                description ""vf=EWL:cn=TATA_COMM:tl=2C02490171:st=act:""
                multi-service-site ""TATA_VSNL_STRAT_A206_LAN5""
                ingress
                    qos 11000
                    queue-override
                        queue 1 create
                            cbs default
                            mbs 391 kilobytes
                            rate 100000 cir 100000
                        exit
                    exit
                exit
                egress
                    qos 11000
                    queue-override
                        queue 1 create
                            cbs default
                            mbs 391 kilobytes
                            rate 100000 cir 100000
                        exit
                    exit
                exit
                accounting-policy 4
                no shutdown
            exit
            spoke-sdp 8139:103256 create
                no shutdown
            exit
            no shutdown
        exit
        epipe 103742 customer 160 create
            description ""vf=EWL:cn=TATA_COM:tl=2C02410363:st=act:""
            service-mtu 1588
            service-name ""EPIPE service-103742 DKTN08a-D0105 (63.130.108.41)""
            sap 5/2/50:20.* create
                description ""vf=EWL:cn=TATA_COM:tl=2C02410338:st=act:""
                multi-service-site ""TATA_STRAT_LON_A206_LANA""
                ingress
                    qos 11000
                    queue-override
                        queue 1 create
                            cbs default
                            mbs 32 kilobytes
                            rate 8000 cir 8000
                        exit
                    exit
                exit
                egress
                    qos 11000
                    queue-override
                        queue 1 create
                            cbs default
                            mbs 32 kilobytes
                            rate 8000 cir 8000
                        exit
                    exit
                exit
                accounting-policy 4
                no shutdown
            exit
            spoke-sdp 8061:103742 create
                no shutdown
            exit
            no shutdown
        exit
        epipe 55513386 customer 4 vc-switching create
            description ""vf=EAGG:cn=Bulldog:tl=VF""
            service-mtu 1526
            spoke-sdp 78:55513386 create
                control-word
                no shutdown
            exit
            spoke-sdp 8245:55513386 create
                control-word
                no shutdown
            exit
            no shutdown
        exit
        epipe 55517673 customer 4 create
            description ""vf=EAGG:cn=Bulldog:tl=2C01291821:st=act:no=NGA EPIPE#BAACTQ#VLAN 901""
            service-mtu 1526
            service-name ""epipe service-64585 DKTN08a-D0105 (63.130.108.41)""
            endpoint ""SDP"" create
                revert-time infinite
            exit
            sap 2/2/3:901.* create
                description ""2_2_3,H0505824A,Bulldog,VLAN 901""
                ingress
                    scheduler-policy ""NGA-LLU-300M""
                    qos 20010
                exit
                egress
                    scheduler-policy ""NGA-LLU-300M""
                    qos 20010
                exit
                no shutdown
            exit
            spoke-sdp 8243:55517673 endpoint ""SDP"" create
                collect-stats
                precedence 1
                no shutdown
            exit
            spoke-sdp 8245:55517673 endpoint ""SDP"" create
                collect-stats
                precedence primary
                no shutdown
            exit
            no shutdown
        exit   
    ", $"_all_")] $"list")) (VList [VList [VDict [(KS $"service", VDict [(KS $"epipe", VDict [(KS $"103076", VDict [(KS $"customer_id", VStr $"160"); (KS $"description", VStr $"vf=EWL:cn=TATA_COM:tl=2C02495918:st=act:"); (KS $"regular_sdp", VDict [(KS $"8051", VDict [(KS $"state", VStr $"enabled"); (KS $"vc_id", VStr $"103076")])]); (KS $"sap", VDict [(KS $"1/2/12:20.qinq", VDict [(KS $"description", VStr $"vf=EWL:cn=TATA_COM:tl=2C02495890:st=act:"); (KS $"egress", VDict [(KS $"sap_egress", VStr $"1)"); (KS $"scheduler_policy", VStr $"none")]); (KS $"ingress", VDict [(KS $"sap_ingress", VStr $"1"); (KS $"scheduler_policy", VStr $"none")]); (KS $"mss_name", VStr $"TATA_VSNL_STRAT_A206_LAN10"); (KS $"state", VStr $"enabled")])]); (KS $"service_mtu", VStr $"1588"); (KS $"service_name", VStr $"EPIPE service-103076 DKTN08a-D0105 (63.130.108.41)"); (KS $"state", VStr $"enabled")]); (KS $"103206", VDict [(KS $"customer_id", VStr $"1904"); (KS $"description", VStr $"vf=1273:cn=skanska:tl=3C02407455:st=act:no='SKANSKA UK PLC Stepney Green E1 3DG'"); (KS $"regular_sdp", VDict [(KS $"8035", VDict [(KS $"state", VStr $"enabled"); (KS $"vc_id", VStr $"103206")])]); (KS $"sap", VDict [(KS $"2/2/3:401.100", VDict [(KS $"description", VStr $"vf=1273:cn=skanska:tl=3C02407455:st=act:no='SKANSKA UK PLC Stepney Green E1 3DG'"); (KS $"egress", VDict [(KS $"sap_egress", VStr $"11010"); (KS $"scheduler_policy", VStr $"none")]); (KS $"ingress", VDict [(KS $"sap_ingress", VStr $"11010"); (KS $"scheduler_policy", VStr $"none")]); (KS $"mss_name", VStr $"SKANSKA_E13DG_A825_LAN1"); (KS $"state", VStr $"enabled")])]); (KS $"service_mtu", VStr $"1988"); (KS $"service_name", VStr $"EPIPE service-103206 DKTN08a-D0105 (63.130.108.41)"); (KS $"state", VStr $"enabled")]); (KS $"103256", VDict [(KS $"customer_id", VStr $"160"); (KS $"description", VStr $"vf=EWL:cn=TATA_COMM:tl=2C02490189:st=act:"); (KS $"regular_sdp", VDict [(KS $"8139", VDict [(KS $"state", VStr $"enabled"); (KS $"vc_id", VStr $"103256")])]); (KS $"sap", VDict [(KS $"1/2/12:15.qinq", VDict [(KS $"description", VStr $"vf=EWL:cn=TATA_COMM:tl=2C02490171:st=act:"); (KS $"egress", VDict [(KS $"sap_egress", VStr $"11000"); (KS $"scheduler_policy", VStr $"none")]); (KS $"ingress", VDict [(KS $"sap_ingress", VStr $"11000"); (KS $"scheduler_policy", VStr $"none")]); (KS $"mss_name", VStr $"TATA_VSNL_STRAT_A206_LAN5"); (KS $"state", VStr $"enabled")])]); (KS $"service_mtu", VStr $"1988"); (KS $"service_name", VStr $"EPIPE service-103256 DKTN08a-D0105 (63.130.108.41)"); (KS $"state", VStr $"enabled")]); (KS $"103742", VDict [(KS $"customer_id", VStr $"160"); (KS $"description", VStr $"vf=EWL:cn=TATA_COM:tl=2C02410363:st=act:"); (KS $"regular_sdp", VDict [(KS $"8061", VDict [(KS $"state", VStr $"enabled"); (KS $"vc_id", VStr $"103742")])]); (KS $"sap", VDict [(KS $"5/2/50:20.qinq", VDict [(KS $"description", VStr $"vf=EWL:cn=TATA_COM:tl=2C02410338:st=act:"); (KS $"egress", VDict [(KS $"sap_egress", VStr $"11000"); (KS $"scheduler_policy", VStr $"none")]); (KS $"ingress", VDict [(KS $"sap_ingress", VStr $"11000"); (KS $"scheduler_policy", VStr $"none")]); (KS $"mss_name", VStr $"TATA_STRAT_LON_A206_LANA"); (KS $"state", VStr $"enabled")])]); (KS $"service_mtu", VStr $"1588"); (KS $"service_name", VStr $"EPIPE service-103742 DKTN08a-D0105 (63.130.108.41)"); (KS $"state", VStr $"enabled")]); (KS $"55517673", VDict [(KS $"customer_id", VStr $"4"); (KS $"description", VStr $"vf=EAGG:cn=Bulldog:tl=2C01291821:st=act:no=NGA EPIPE#BAACTQ#VLAN 901"); (KS $"endpoint", VDict [(KS $"endpoint", VStr $"""SDP"""); (KS $"revert_time", VStr $"infinite")]); (KS $"pwr_sdp", VDict [(KS $"8243", VDict [(KS $"endpoint", VStr $"""SDP"""); (KS $"precedence", VStr $"1"); (KS $"state", VStr $"enabled"); (KS $"vc_id", VStr $"55517673")]); (KS $"8245", VDict [(KS $"endpoint", VStr $"""SDP"""); (KS $"precedence", VStr $"primary"); (KS $"state", VStr $"enabled"); (KS $"vc_id", VStr $"55517673")])]); (KS $"sap", VDict [(KS $"2/2/3:901.qinq", VDict [(KS $"description", VStr $"2_2_3,H0505824A,Bulldog,VLAN 901"); (KS $"egress", VDict [(KS $"sap_egress", VStr $"20010"); (KS $"scheduler_policy", VStr $"""NGA-LLU-300M""")]); (KS $"ingress", VDict [(KS $"sap_ingress", VStr $"20010"); (KS $"scheduler_policy", VStr $"""NGA-LLU-300M""")]); (KS $"mss_name", VStr $"none"); (KS $"state", VStr $"enabled")])]); (KS $"service_mtu", VStr $"1526"); (KS $"service_name", VStr $"epipe service-64585 DKTN08a-D0105 (63.130.108.41)"); (KS $"state", VStr $"enabled")])])])]]]) = true.
Proof. vm_compute. reflexivity. Qed.

(** test/pytest/test_answers_and_docs.py test_github_issue_42_answer *)
Example answers_and_docs_github_issue_42_answer : is_ (at_ [] (ttp_result (fun _ => None) false sort_set ({| w_file := fun p => assoc p []; w_dir := fun p => assoc p []; w_tdir := None; w_exec := fun _ => out_of_model |}) $"" [] $"
<group name=""vrfs"">
vrf {{name}}
  <group name=""import_rts"">
  import route-target {{ _start_ }}
   {{ import_rt | _start_ }}
  </group>
  !
  <group name=""export_rts"">
  export route-target {{ _start_ }}
   {{ export_rt | _start_ }}
  </group>
</group>
    " [(VStr $"
vrf xyz
 address-family ipv4 unicast
  import route-target
   65000:3507
   65000:3511
   65000:5453
   65000:5535
  !
  export route-target
   65000:5453
   65000:5535
  !
 !
!    
    ", $"_all_")] $"list")) (VList [VList [VDict [(KS $"vrfs", VDict [(KS $"export_rts", VList [VDict [(KS $"export_rt", VStr $"65000:5453")]; VDict [(KS $"export_rt", VStr $"65000:5535")]]); (KS $"import_rts", VList [VDict [(KS $"import_rt", VStr $"65000:3507")]; VDict [(KS $"import_rt", VStr $"65000:3511")]; VDict [(KS $"import_rt", VStr $"65000:5453")]; VDict [(KS $"import_rt", VStr $"65000:5535")]]); (KS $"name", VStr $"xyz")])]]]) = true.
Proof. vm_compute. reflexivity. Qed.

(** test/pytest/test_answers_and_docs.py test_issue_45_1 *)
Example answers_and_docs_issue_45_1 : is_ (at_ [] (ttp_result (fun _ => None) false sort_set ({| w_file := fun p => assoc p []; w_dir := fun p => assoc p []; w_tdir := None; w_exec := fun _ => out_of_model |}) $"" [] $"
<group name=""vrfs*"">
    {{ name | _start_ }} {
        <group name=""forwarding_options"">
        forwarding-options { {{ _start_ }}
            <group name=""dhcp_relay"">
            dhcp-relay { {{ _start_ }}
            
                <group name=""server_group"">
                server-group { {{ _start_ }}
                    <group name=""dhcp*"">
                    {{ server_group_name | _start_ }} {
                    </group>
                </group>
                
                <group name=""groups*"">
                group {{ group_name | _start_ }} {
                </group>
                
            </group>
        </group>
</group>    
    " [(VStr $"
    vrf2 {
        forwarding-options {
            dhcp-relay {
                server-group {
                    IN_MEDIA_SIGNALING {
                        10.154.6.147;
                    }
                group NGN-SIG {
                    active-server-group DHCP-NGN-SIG;
                    overrides {
                        trust-option-82;
                    }
                }
            }
        }
    }
    ", $"_all_")] $"list")) (VList [VList [VDict [(KS $"vrfs", VList [VDict [(KS $"forwarding_options", VDict [(KS $"dhcp_relay", VDict [(KS $"groups", VList [VDict [(KS $"group_name", VStr $"NGN-SIG")]]); (KS $"server_group", VDict [(KS $"dhcp", VList [VDict [(KS $"server_group_name", VStr $"IN_MEDIA_SIGNALING")]; VDict [(KS $"server_group_name", VStr $"overrides")]])])])]); (KS $"name", VStr $"vrf2")]])]]]) = true.
Proof. vm_compute. reflexivity. Qed.

(** test/pytest/test_answers_and_docs.py test_issue_47_answer *)
Example answers_and_docs_issue_47_answer : is_ (at_ [] (ttp_result (fun _ => None) false sort_set ({| w_file := fun p => assoc p []; w_dir := fun p => assoc p []; w_tdir := None; w_exec := fun _ => out_of_model |}) $"" [] $"
Some text which indicates that below block should be included in results ABC {{ _start_ }}
Some text which indicates that below block should be included in results DEF {{ _start_ }}
Some text which indicates that below block should be included in results GKL {{ _start_ }}
interface {{ interface }}
 ip address {{ ip }}/{{ mask }}
 description {{ description | re("".+"") }}
 ip vrf {{ vrf }}
! {{ _end_ }}
" [(VStr $"
Some text which indicates that below block should be included in results ABC
interface Loopback0
 description Router-id-loopback
 ip address 192.168.0.113/24
!
Some text which indicates that below block should be included in results DEF
interface Loopback2
 description Router-id-loopback 2
 ip address 192.168.0.114/24
!
Some text which indicates that below block should NOT be included in results
interface Vlan778
 description CPE_Acces_Vlan
 ip address 2002::fd37/124
 ip vrf CPE1
!
Some text which indicates that below block should be included in results GKL
interface Loopback3
 description Router-id-loopback 3
 ip address 192.168.0.115/24
!
", $"_all_")] $"list")) (VList [VList [VList [VDict [(KS $"description", VStr $"Router-id-loopback"); (KS $"interface", VStr $"Loopback0"); (KS $"ip", VStr $"192.168.0.113"); (KS $"mask", VStr $"24")]; VDict [(KS $"description", VStr $"Router-id-loopback 2"); (KS $"interface", VStr $"Loopback2"); (KS $"ip", VStr $"192.168.0.114"); (KS $"mask", VStr $"24")]; VDict [(KS $"description", VStr $"Router-id-loopback 3"); (KS $"interface", VStr $"Loopback3"); (KS $"ip", VStr $"192.168.0.115"); (KS $"mask", VStr $"24")]]]]) = true.
Proof. vm_compute. reflexivity. Qed.

(** test/pytest/test_answers_and_docs.py test_issue_48_answer_more *)
Example answers_and_docs_issue_48_answer_more : is_ (at_ [] (ttp_result (fun _ => None) false sort_set ({| w_file := fun p => assoc p []; w_dir := fun p => assoc p []; w_tdir := None; w_exec := fun _ => out_of_model |}) $"" [] $"
<vars>
chain_1 = [
    ""ORPHRASE"",
    ""exclude('Prerequisite(s)')"",
    ""exclude('Department(s)')"",
    ""exclude('Restriction(s)')"",
    ""joinmatches""
]
</vars>

<group>
{{ course }}*{{ code }} {{ name | PHRASE }} {{ semester }} ({{ lecture_lab_time }}) [{{ weight }}]
{{ description | chain(chain_1) }}
Prerequisite(s): {{ prereqs | ORPHRASE }}
Department(s): {{ department | ORPHRASE }}   

<group name=""_"">
Restriction(s): {{ restrictions | PHRASE | joinmatches }}
{{ restrictions | chain(chain_1) }}
</group>

</group>
    " [(VStr $"
IBIO*4521 Thesis in Integrative Biology F (0-12) [1.00]
This course is the first part of the two-semester course IBIO*4521/2. This course is
a two-semester (F,W) undergraduate project in which students conduct a comprehensive,
independent research project in organismal biology under the supervision of a faculty
member in the Department of Integrative Biology. Projects involve a thorough literature
review, a research proposal, original research communicated in oral and poster
presentations, and in a written, publication quality document. This two-semester course
offers students the opportunity to pursue research questions and experimental designs
that cannot be completed in the single semester research courses. Students must make
arrangements with both a faculty supervisor and the course coordinator at least one
semester in advance. A departmental registration form must be obtained from the course
coordinator and submitted no later than the second class day of the fall semester. This is
a twosemester course offered over consecutive semesters F-W. When you select this
course, you must select IBIO*4521 in the Fall semester and IBIO*4522 in the Winter
semester.A grade will not be assigned to IBIO*4521 until IBIO*4522 has been completed.
Prerequisite(s): 12.00 credits
Restriction(s): Normally a minimum cumulative average of 70%. Permission of course
coordinator.
Department(s): Department of Integrative Biology

IBIO*4533 Thesis in Integrative Biology F (0-14) [2.00]
This course is the first part of the two-semester course IBIO*4521/2. This course is
a two-semester (F,W) undergraduate project in which students conduct a comprehensive,
independent research project in organismal biology under the supervision of a faculty
member in the Department of Integrative Biology. 
Restriction(s): Normally a minimum cumulative average of 80%. Permission of course
coordinator. Normally a minimum cumulative average of 90%. Permission of course
coordinator. 
Department(s): Department of Integrative Biology
    ", $"_all_")] $"list")) (VList [VList [VList [VDict [(KS $"code", VStr $"4521"); (KS $"course", VStr $"IBIO"); (KS $"department", VStr $"Department of Integrative Biology"); (KS $"description", VStr $"This course is the first part of the two-semester course IBIO*4521/2. This course is
a two-semester (F,W) undergraduate project in which students conduct a comprehensive,
independent research project in organismal biology under the supervision of a faculty
member in the Department of Integrative Biology. Projects involve a thorough literature
review, a research proposal, original research communicated in oral and poster
presentations, and in a written, publication quality document. This two-semester course
offers students the opportunity to pursue research questions and experimental designs
that cannot be completed in the single semester research courses. Students must make
arrangements with both a faculty supervisor and the course coordinator at least one
semester in advance. A departmental registration form must be obtained from the course
coordinator and submitted no later than the second class day of the fall semester. This is
a twosemester course offered over consecutive semesters F-W. When you select this
course, you must select IBIO*4521 in the Fall semester and IBIO*4522 in the Winter
semester.A grade will not be assigned to IBIO*4521 until IBIO*4522 has been completed."); (KS $"lecture_lab_time", VStr $"0-12"); (KS $"name", VStr $"Thesis in Integrative Biology"); (KS $"prereqs", VStr $"12.00 credits"); (KS $"restrictions", VStr $"Normally a minimum cumulative average of 70%. Permission of course
coordinator."); (KS $"semester", VStr $"F"); (KS $"weight", VStr $"1.00")]; VDict [(KS $"code", VStr $"4533"); (KS $"course", VStr $"IBIO"); (KS $"department", VStr $"Department of Integrative Biology"); (KS $"description", VStr $"This course is the first part of the two-semester course IBIO*4521/2. This course is
a two-semester (F,W) undergraduate project in which students conduct a comprehensive,
independent research project in organismal biology under the supervision of a faculty
member in the Department of Integrative Biology."); (KS $"lecture_lab_time", VStr $"0-14"); (KS $"name", VStr $"Thesis in Integrative Biology"); (KS $"restrictions", VStr $"Normally a minimum cumulative average of 80%. Permission of course
coordinator. Normally a minimum cumulative average of 90%. Permission of course
coordinator."); (KS $"semester", VStr $"F"); (KS $"weight", VStr $"2.00")]]]]) = true.
Proof. vm_compute. reflexivity. Qed.

(** test/pytest/test_answers_and_docs.py test_slack_answer_2 *)
Example answers_and_docs_slack_answer_2 : is_ (at_ [] (ttp_result (fun _ => None) false sort_set ({| w_file := fun p => assoc p []; w_dir := fun p => assoc p []; w_tdir := None; w_exec := fun _ => out_of_model |}) $"" [] $"
    <group name=""system.ports"">
    port {{ id }}
        shutdown {{ admin_enabled | set(false) }}
        description ""{{ description | ORPHRASE | strip('""') }}""
        <group name=""ethernet"">
        ethernet {{ _start_ }}
            mode {{ mode }}
            encap-type {{ encap_type }}
            mtu {{ mtu | DIGIT }}
            egress-scheduler-policy {{ egress_sched_policy | strip('""') }}
            loopback internal persistent {{ loop_internal | set(true) }}
            <group name=""network"">
            network {{ _start_ }}
                queue-policy {{ queue_policy | ORPHRASE | strip('""') }}
                accounting-policy {{ accounting_policy | DIGIT }}
                collect-stats {{ collect_stats | set(true) }}
                <group name=""egress"">
                egress {{ _start_ }}
                    <group name=""queuegroups*"">
                    queue-group {{ name | strip('""') }} instance 1 create
                            rate {{ agg_rate | DIGIT }}
                    exit {{_end_}}
                    </group>
## this ""exit {{ _end_ }}"" had wrong indentation level, leading to 
## group name=""egress"" finishing too early
                exit {{_end_}}
                </group>
            exit {{_end_}}
            </group>
            lldp {{ lldp_enabled | set(true) }}
        exit {{_end_}}
        </group>
        no shutdown {{admin_enabled | set(true)}}
    exit {{_end_}}
    </group>
    " [(VStr $"
    port 1/1/1
        description ""port 1 description""
        ethernet
            mode hybrid
            encap-type dot1q
            crc-monitor
                sd-threshold 5 multiplier 5
                sf-threshold 3 multiplier 5
                window-size 60
            exit
            network
                queue-policy ""ncq-only""
                accounting-policy 12
                collect-stats
                egress
                    queue-group ""qos-policy-for-router1"" instance 1 create
                        accounting-policy 1
                        collect-stats
                        agg-rate
                            rate 50000
                        exit
                    exit
                exit
            exit
            access
                egress
                    queue-group ""policer-output-queues"" instance 1 create
                        accounting-policy 1
                        collect-stats
                    exit
                exit
            exit
            lldp
                dest-mac nearest-bridge
                    admin-status tx-rx
                    notification
                    tx-tlvs port-desc sys-name sys-desc sys-cap
                    tx-mgmt-address system
                exit
            exit
            down-on-internal-error
        exit
        no shutdown
    exit
    port 1/1/2
        description ""another port to a another router""
        ethernet
            mode hybrid
            encap-type dot1q
            egress-scheduler-policy ""qos-port-scheduler""
            crc-monitor
                sd-threshold 5 multiplier 5
                sf-threshold 3 multiplier 5
                window-size 60
            exit
            access
                egress
                    queue-group ""policer-output-queues"" instance 1 create
                        accounting-policy 1
                        collect-stats
                    exit
                exit
            exit
            down-on-internal-error
        exit
        no shutdown
    exit
    port 1/1/3
        description ""port 3 to some third router""
        ethernet
            mode access
            encap-type dot1q
            mtu 2000
            egress-scheduler-policy ""strict-scheduler""
            network
                queue-policy ""ncq-only""
                accounting-policy 12
                collect-stats
                egress
                    queue-group ""some-shaping-policy"" instance 1 create
                        accounting-policy 1
                        collect-stats
                        agg-rate
                            rate 50000
                        exit
                    exit
                    queue-group ""another-shaping-policy"" instance 1 create
                        accounting-policy 1
                        collect-stats
                        agg-rate
                            rate 50000
                        exit
                    exit
                    queue-group ""this-shaper-is-cool"" instance 1 create
                        agg-rate
                            rate 1000000
                        exit
                    exit
                exit
            exit
        exit
        no shutdown
    exit
    ", $"_all_")] $"list")) (VList [VList [VDict [(KS $"system", VDict [(KS $"ports", VList [VDict [(KS $"admin_enabled", VBool true); (KS $"description", VStr $"port 1 description"); (KS $"ethernet", VDict [(KS $"encap_type", VStr $"dot1q"); (KS $"lldp_enabled", VBool true); (KS $"mode", VStr $"hybrid"); (KS $"network", VDict [(KS $"accounting_policy", VStr $"12"); (KS $"collect_stats", VBool true); (KS $"egress", VDict [(KS $"queuegroups", VList [VDict [(KS $"agg_rate", VStr $"50000"); (KS $"name", VStr $"qos-policy-for-router1")]])]); (KS $"queue_policy", VStr $"ncq-only")])]); (KS $"id", VStr $"1/1/1")]; VDict [(KS $"admin_enabled", VBool true); (KS $"description", VStr $"another port to a another router"); (KS $"ethernet", VDict [(KS $"egress_sched_policy", VStr $"qos-port-scheduler"); (KS $"encap_type", VStr $"dot1q"); (KS $"mode", VStr $"hybrid")]); (KS $"id", VStr $"1/1/2")]; VDict [(KS $"admin_enabled", VBool true); (KS $"description", VStr $"port 3 to some third router"); (KS $"ethernet", VDict [(KS $"egress_sched_policy", VStr $"strict-scheduler"); (KS $"encap_type", VStr $"dot1q"); (KS $"mode", VStr $"access"); (KS $"mtu", VStr $"2000"); (KS $"network", VDict [(KS $"accounting_policy", VStr $"12"); (KS $"collect_stats", VBool true); (KS $"egress", VDict [(KS $"queuegroups", VList [VDict [(KS $"agg_rate", VStr $"50000"); (KS $"name", VStr $"some-shaping-policy")]; VDict [(KS $"agg_rate", VStr $"50000"); (KS $"name", VStr $"another-shaping-policy")]; VDict [(KS $"agg_rate", VStr $"1000000"); (KS $"name", VStr $"this-shaper-is-cool")]])]); (KS $"queue_policy", VStr $"ncq-only")])]); (KS $"id", VStr $"1/1/3")]])])]]]) = true.
Proof. vm_compute. reflexivity. Qed.

(** test/pytest/test_answers_and_docs.py test_slack_answer_3_full *)
Example answers_and_docs_slack_answer_3_full : is_ (at_ [] (ttp_result (fun _ => None) false sort_set ({| w_file := fun p => assoc p []; w_dir := fun p => assoc p []; w_tdir := None; w_exec := fun _ => out_of_model |}) $"" [] $"
#-------------------------------------------------- {{ ignore }}
echo ""Service Configuration"" {{ ignore }}
#-------------------------------------------------- {{ ignore }}
    service {{ ignore }}
<group name=""service.vprns*.{{id}}**"">
        vprn {{ id }} name {{ name | ORPHRASE | strip('""') }} customer {{ ignore }} create
            shutdown {{ admin_enabled | set(""False"") }}
            description {{ description | ORPHRASE | strip('""') }}
            vrf-import {{ import_policy | ORPHRASE | strip('""') }}
            router-id {{ router_id }}
            autonomous-system {{ local_as }}
            route-distinguisher {{ loopback_ip }}:{{ vrf_routedist }}
            vrf-target target:{{ ignore }}:{{ vrf_routetarget }}
            vrf-target {{ vrf_export }} target:{{ ignore }}:{{ vrf_routetarget }}
        <group name=""interfaces*.{{name}}**"">
            interface {{ name | ORPHRASE | strip('""') }} create
                shutdown {{ admin_enabled | set(""False"") }}
                description {{ description | ORPHRASE | strip('""') }}
                address {{ address | IP }}/{{ mask | DIGIT }}
                ip-mtu {{ mtu }}
                bfd {{ bfd_timers }} receive {{ ignore }} multiplier {{ bfd_interval }}
            <group name=""vrrp"">
                vrrp {{ instance }}
                    backup {{ backup }}
                    priority {{ priority }}
                    policy {{ policy }}
                    ping-reply {{ pingreply | set(""True"") }}
                    traceroute-reply {{ traceroute_reply | set(""True"") }}
                    init-delay {{ initdelay }}
                    message-interval {{ message_int_seconds }}
                    message-interval  milliseconds {{ message_int_milliseconds }}
                    bfd-enable 1 interface {{ bfd_interface | ORPHRASE | strip('""')}} dst-ip {{ bfd_dst_ip }}
                exit {{ _end_ }}
            </group>
            <group name=""ipv6"">
                ipv6 {{ _start_ }}
                    address {{ address | IPV6 }}/{{ mask | DIGIT }}
                    address {{ address | _start_ | IPV6 }}/{{ mask | DIGIT }} dad-disable
                    link-local-address {{ linklocal_address | IPV6 }} dad-disable
                <group name=""vrrp"">
                    vrrp {{ instance | _start_ }}
                    <group name=""backup*"">
                        backup {{ ip }}
                    </group>
                        priority {{ priority }}
                        policy {{ policy }}
                        ping-reply {{ pingreplay | set(""True"") }}
                        traceroute-reply {{ traceroute_reply | set(""True"") }}
                        init-delay {{ initdelay }}
                        message-interval milliseconds {{ message_int_milliseconds }}
                    exit {{ _end_ }}
                </group>
                exit {{ _end_ }}
            </group>
            <group name=""vpls"">
                vpls {{ vpls_name | ORPHRASE | strip('""') | _start_ }}
                exit {{ _end_ }}
            </group>
            <group name=""sap**"">
                sap {{ port | _start_ }}:{{ vlan | DIGIT }} create
                    ingress {{ _exact_ }}
                        qos {{ qos_sap_ingress }}
                <group name=""_"">
                    egress {{ _start_ }}
                        qos {{ qos_sap_egress }}
                </group>
                    collect-stats {{ collect_stats | set(""True"") }}
                    accounting-policy {{ accounting_policy }}
                exit {{ _end_}}
            </group>
            exit {{ _end_}}
        </group>
        <group name=""staticroutes*"">
            static-route-entry {{ prefix | PREFIX | _start_ }}
                black-hole {{ blackhole | set(""True"") }}
                next-hop {{ nexthop | IP }}
                    shutdown {{ admin_enabled | set(""False"") }}
                    no shutdown {{ admin_enabled | set(""True"") }}
            exit {{ _end_ }}
        </group>
        <group name=""aggregates"">
            aggregate {{ agg_block | PREFIX | _start_ }} summary-only
        </group>
        <group name=""router_advertisement"">
            router-advertisement {{ _start_ }}
                interface {{ interface | ORPHRASE | strip('""') }}
                    use-virtual-mac {{ use_virtualmac | set(""True"") }}
                    no shutdown {{ admin_enabled | set(""True"") }}
            exit {{ _end_ }}
        </group>
        <group name=""bgp**"">
            bgp {{ _start_ }}
                min-route-advertisement {{ min_route_advertisement | DIGIT }}
                <group name=""peergroups*"">
                group {{ name | ORPHRASE | strip('""') }}
                    family {{ family | ORPHRASE | split("" "") }}
                    type {{ peer_type | ORPHRASE }}
                    import {{ importpolicy | ORPHRASE | strip('""') }}
                    export {{ exportpolicy | ORPHRASE | strip('""') }}
                    peer-as {{ remote_as }}
                    bfd-enable {{ bfd_enabled | set(""True"") }}
                    <group name=""neighbors*"">
                    neighbor {{ address | IP | _start_ }}
                    neighbor {{ address | IPV6 | _start_ }}
                        shutdown {{ admin_enabled | set(""False"") }}
                        keepalive {{ keepalive }}
                        hold-time {{ holdtime }}
                        bfd-enable {{ bfd_enabled | set(""True"") }}
                        as-override {{ as_override | set(""True"") }}
                    exit {{ _end_ }}
                    </group>
                exit {{ _end_ }}
                </group>
                no shutdown {{ admin_enabled | set(""True"") | _start_ }}
            exit {{ _end_ }}
        </group>
        <group name=""ospf**"">
            ospf {{ _start_ }}{{ _exact_ }}
                area {{ area }}
                <group name=""interfaces*"">
                    interface {{ name | ORPHRASE | strip('""') | _start_ }}
                        passive {{ passive | set(""True"") }}
                    exit {{ _end_ }}
                </group>
                no shutdown {{ admin_enabled | set(""True"") }}
            exit {{ _end_ }}
        </group>
        <group name=""ospf3**"">
            ospf3 0 {{ _start_ }}{{ _exact_ }}
                area {{ area }}
                <group name=""interfaces*"">
                    interface {{ name | ORPHRASE | strip('""') | _start_ }}
                        passive {{ passive | set(""True"") }}
                    exit {{ _end_ }}
                </group>
                no shutdown {{ admin_enabled | set(""True"") }}
            exit {{ _end_ }}
        </group>
            no shutdown {{ admin_enabled | set(""True"") }}
        exit {{ _end_ }}
</group>    
    " [(VStr $"
    service
        vprn 1 name ""vprn1"" customer 10 create
            interface ""loopback"" create
            exit
            interface ""interface-one"" create
            exit
            interface ""interface-two"" create
            exit
            interface ""bgp-interface"" create
            exit
        exit
        vprn 2 name ""vprn2"" customer 20 create
            interface ""loopback"" create
            exit
            interface ""interface-two"" create
            exit
            interface ""bgp-interface"" create
            exit
        exit
        vprn 3 name ""vprn3"" customer 30 create
            interface ""loopback"" create
            exit
            interface ""interface-two"" create
            exit
        exit
        vprn 4 name ""ospf_version3_vprn"" customer 40 create
            interface ""loopback"" create
            exit
            interface ""interface-two"" create
            exit
        exit
        vprn 5 name ""vprn5"" customer 50 create
            interface ""loopback"" create
            exit
            interface ""interface-two"" create
            exit
            interface ""bgp-interface"" create
            exit
        exit
        vprn 1 name ""vprn1"" customer 10 create
            interface ""loopback"" create
                address 10.10.10.1/32
                loopback
            exit
            interface ""interface-one"" create
                address 10.10.10.10/30
                sap 1/1/1:10 create
                exit
            exit
            interface ""interface-two"" create
                address 10.10.10.100/31
                sap lag-5:80 create
                exit
            exit
            interface ""bgp-interface"" create
                address 10.10.10.200/31
                sap lag-4:100 create
                exit
            exit
            ospf
                area 0.0.0.0
                    interface ""interface-two""
                        passive
                        no shutdown
                    exit
                exit
                no shutdown
            exit
            no shutdown
        exit
        vprn 2 name ""vprn2"" customer 20 create
            interface ""interface-two"" create
                address 10.11.11.10/31
                sap lag-1:50 create
                exit
            exit
            ospf
                area 0.0.0.0
                    interface ""interface-two""
                        passive
                        no shutdown
                    exit
                exit
                no shutdown
            exit
            no shutdown
        exit
        vprn 3 name ""vprn3"" customer 30 create
            interface ""loopback"" create
                address 10.12.12.12/32
                loopback
            exit
            interface ""interface-two"" create
                address 10.12.12.100/31
                sap lag-5:33 create
                exit
            exit
            ospf
                area 0.0.0.0
                    interface ""interface-two""
                        passive
                        no shutdown
                    exit
                exit
                no shutdown
            exit
            no shutdown
        exit
        vprn 4 name ""ospf_version3_vprn"" customer 40 create
            interface ""loopback"" create
                address 10.40.40.10/32
                ipv6
                    address 1500:1000:460e::a03:ae46/128
                exit
                loopback
            exit
            interface ""interface-two"" create
                address 10.40.40.100/31
                ipv6
                    address 1500:1000:460e::2222:1111/64
                exit
                sap lag-5:800 create
                exit
            exit
            ospf
                area 0.0.0.0
                    interface ""interface-two""
                        passive
                        no shutdown
                    exit
                exit
                no shutdown
            exit
            ospf3 0
                area 0.0.0.0
                    interface ""interface-two""
                        passive
                        no shutdown
                    exit
                exit
                no shutdown
            exit
            no shutdown
        exit
        vprn 5 name ""vprn5"" customer 50 create
            interface ""loopback"" create
                address 10.50.50.50/32
                loopback
            exit
            interface ""interface-two"" create
                address 10.50.50.100/31
                sap lag-5:5 create
                exit
            exit
            interface ""bgp-interface"" create
                address 10.50.50.200/31
                sap lag-1:602 create
                exit
            exit
            bgp
                group ""eBGP""
                    peer-as 4444
                    neighbor 10.50.50.201
                    exit
                exit
                no shutdown
            exit
            ospf
                area 0.0.0.0
                    interface ""interface-two""
                        passive
                        no shutdown
                    exit
                exit
                no shutdown
            exit
            no shutdown
        exit
    exit
    ", $"_all_")] $"list")) (VList [VList [VDict [(KS $"service", VDict [(KS $"vprns", VList [VDict [(KS $"1", VDict [(KS $"admin_enabled", VStr $"True"); (KS $"interfaces", VList [VDict [(KS $"bgp-interface", VDict [(KS $"address", VStr $"10.10.10.200"); (KS $"mask", VStr $"31"); (KS $"sap", VDict [(KS $"port", VStr $"lag-4"); (KS $"vlan", VStr $"100")])]); (KS $"interface-one", VDict [(KS $"address", VStr $"10.10.10.10"); (KS $"mask", VStr $"30"); (KS $"sap", VDict [(KS $"port", VStr $"1/1/1"); (KS $"vlan", VStr $"10")])]); (KS $"interface-two", VDict [(KS $"address", VStr $"10.10.10.100"); (KS $"mask", VStr $"31"); (KS $"sap", VDict [(KS $"port", VStr $"lag-5"); (KS $"vlan", VStr $"80")])]); (KS $"loopback", VDict [(KS $"address", VStr $"10.10.10.1"); (KS $"mask", VStr $"32")])]]); (KS $"name", VStr $"vprn1"); (KS $"ospf", VDict [(KS $"admin_enabled", VStr $"True"); (KS $"area", VStr $"0.0.0.0"); (KS $"interfaces", VList [VDict [(KS $"name", VStr $"interface-two"); (KS $"passive", VStr $"True")]])])]); (KS $"2", VDict [(KS $"admin_enabled", VStr $"True"); (KS $"interfaces", VList [VDict [(KS $"bgp-interface", VDict []); (KS $"interface-two", VDict [(KS $"address", VStr $"10.11.11.10"); (KS $"mask", VStr $"31"); (KS $"sap", VDict [(KS $"port", VStr $"lag-1"); (KS $"vlan", VStr $"50")])]); (KS $"loopback", VDict [])]]); (KS $"name", VStr $"vprn2"); (KS $"ospf", VDict [(KS $"admin_enabled", VStr $"True"); (KS $"area", VStr $"0.0.0.0"); (KS $"interfaces", VList [VDict [(KS $"name", VStr $"interface-two"); (KS $"passive", VStr $"True")]])])]); (KS $"3", VDict [(KS $"admin_enabled", VStr $"True"); (KS $"interfaces", VList [VDict [(KS $"interface-two", VDict [(KS $"address", VStr $"10.12.12.100"); (KS $"mask", VStr $"31"); (KS $"sap", VDict [(KS $"port", VStr $"lag-5"); (KS $"vlan", VStr $"33")])]); (KS $"loopback", VDict [(KS $"address", VStr $"10.12.12.12"); (KS $"mask", VStr $"32")])]]); (KS $"name", VStr $"vprn3"); (KS $"ospf", VDict [(KS $"admin_enabled", VStr $"True"); (KS $"area", VStr $"0.0.0.0"); (KS $"interfaces", VList [VDict [(KS $"name", VStr $"interface-two"); (KS $"passive", VStr $"True")]])])]); (KS $"4", VDict [(KS $"admin_enabled", VStr $"True"); (KS $"interfaces", VList [VDict [(KS $"interface-two", VDict [(KS $"address", VStr $"10.40.40.100"); (KS $"ipv6", VDict [(KS $"address", VStr $"1500:1000:460e::2222:1111"); (KS $"mask", VStr $"64")]); (KS $"mask", VStr $"31"); (KS $"sap", VDict [(KS $"port", VStr $"lag-5"); (KS $"vlan", VStr $"800")])]); (KS $"loopback", VDict [(KS $"address", VStr $"10.40.40.10"); (KS $"ipv6", VDict [(KS $"address", VStr $"1500:1000:460e::a03:ae46"); (KS $"mask", VStr $"128")]); (KS $"mask", VStr $"32")])]]); (KS $"name", VStr $"ospf_version3_vprn"); (KS $"ospf", VDict [(KS $"admin_enabled", VStr $"True"); (KS $"area", VStr $"0.0.0.0"); (KS $"interfaces", VList [VDict [(KS $"name", VStr $"interface-two"); (KS $"passive", VStr $"True")]])]); (KS $"ospf3", VDict [(KS $"admin_enabled", VStr $"True"); (KS $"area", VStr $"0.0.0.0"); (KS $"interfaces", VList [VDict [(KS $"name", VStr $"interface-two"); (KS $"passive", VStr $"True")]])])]); (KS $"5", VDict [(KS $"admin_enabled", VStr $"True"); (KS $"bgp", VDict [(KS $"admin_enabled", VStr $"True"); (KS $"peergroups", VList [VDict [(KS $"name", VStr $"eBGP"); (KS $"neighbors", VList [VDict [(KS $"address", VStr $"10.50.50.201")]]); (KS $"remote_as", VStr $"4444")]])]); (KS $"interfaces", VList [VDict [(KS $"bgp-interface", VDict [(KS $"address", VStr $"10.50.50.200"); (KS $"mask", VStr $"31"); (KS $"sap", VDict [(KS $"port", VStr $"lag-1"); (KS $"vlan", VStr $"602")])]); (KS $"interface-two", VDict [(KS $"address", VStr $"10.50.50.100"); (KS $"mask", VStr $"31"); (KS $"sap", VDict [(KS $"port", VStr $"lag-5"); (KS $"vlan", VStr $"5")])]); (KS $"loopback", VDict [(KS $"address", VStr $"10.50.50.50"); (KS $"mask", VStr $"32")])]]); (KS $"name", VStr $"vprn5"); (KS $"ospf", VDict [(KS $"area", VStr $"0.0.0.0"); (KS $"interfaces", VList [VDict [(KS $"name", VStr $"interface-two"); (KS $"passive", VStr $"True")]])])])]])])]]]) = true.
Proof. vm_compute. reflexivity. Qed.

(** test/pytest/test_answers_and_docs.py test_faq_multiline_output_matching *)
Example answers_and_docs_faq_multiline_output_matching : is_ (at_ [] (ttp_result (fun _ => None) false sort_set ({| w_file := fun p => assoc p []; w_dir := fun p => assoc p []; w_tdir := None; w_exec := fun _ => out_of_model |}) $"" [] $"
<group>
Local Intf: {{ local_intf }}
System Name: {{ peer_name }}

<group name=""peer_system_description"">
System Description: {{ _start_ }}
{{ sys_description | _line_ | joinmatches("" "") }}
Time remaining: {{ ignore }} seconds {{ _end_ }}
</group>

</group>
    " [(VStr $"
Local Intf: Te2/1/23
System Name: r1.lab.local

System Description: 
Cisco IOS Software, Catalyst 1234 L3 Switch Software (cat1234e-ENTSERVICESK9-M), Version 1534.1(1)SG, RELEASE SOFTWARE (fc3)
Technical Support: http://www.cisco.com/techsupport
Copyright (c) 1986-2012 by Cisco Systems, Inc.
Compiled Sun 15-Apr-12 02:35 by p

Time remaining: 92 seconds    
    ", $"_all_")] $"list")) (VList [VList [VList [VDict [(KS $"local_intf", VStr $"Te2/1/23"); (KS $"peer_name", VStr $"r1.lab.local"); (KS $"peer_system_description", VDict [(KS $"sys_description", VStr $"Cisco IOS Software, Catalyst 1234 L3 Switch Software (cat1234e-ENTSERVICESK9-M), Version 1534.1(1)SG, RELEASE SOFTWARE (fc3) Technical Support: http://www.cisco.com/techsupport Copyright (c) 1986-2012 by Cisco Systems, Inc. Compiled Sun 15-Apr-12 02:35 by p")])]]]]) = true.
Proof. vm_compute. reflexivity. Qed.

(** test/pytest/test_answers_and_docs.py test_issue_50 *)
Example answers_and_docs_issue_50 : is_ (at_ [] (ttp_result (fun _ => None) false sort_set ({| w_file := fun p => assoc p []; w_dir := fun p => assoc p []; w_tdir := None; w_exec := fun _ => out_of_model |}) $"" [] $"
<input load=""text"">

        interface ""BNG-RH201-CORE""
            address 11.11.11.11/31
            description ""BNG-RH201-CORE""
            ldp-sync-timer 10
            port lag-107:709
            ipv6
                address 1111:0:1111:1111::1/64
            exit
            bfd 150 receive 150 multiplier 3
            no shutdown
        exit
        interface ""BNG-RH202-CORE""
            address 22.22.22.22/31
            description ""BNG-RH201-CORE""
            ldp-sync-timer 10
            port lag-108:809
            ipv6
                address 2222:0:2222:2222::2/64
            exit
            bfd 150 receive 150 multiplier 3
            no shutdown
        exit
        interface ""system""
            address 33.33.33.33/32
            ipv6
                address 3333:0:3333:3333::3/128
            exit
            no shutdown
        exit

        ies 97 name ""OTDR-MGT"" customer 1 create
            description ""OTDR-MGT""
            interface ""OTDR-MGT"" create
                address 44.44.44.44/25
                vrrp 97
                    backup 10.20.30.1
                    priority 200
                exit
                vpls ""OTDR-MGT-VPLS""
                exit
            exit
            no shutdown
        exit

        ies 99 name ""OLT-MGT"" customer 1 create
            description ""OLT-INBAND-MGT""
            interface ""OLT-MGT"" create
                address 55.55.55.55/25
                vrrp 1
                    backup 10.20.40.1
                    priority 200
                exit
                vpls ""OLT-MGT-VPLS""
                exit
            exit
            no shutdown
        exit
        ies 100 name ""100"" customer 1 create
            description ""IES 100 for subscribers""
            redundant-interface ""shunt"" create
                address 66.66.66.66/31
                spoke-sdp 1:100 create
                    no shutdown
                exit
            exit
            subscriber-interface ""s100"" create
                description "" Subscriber interface for subscribers""
                allow-unmatching-subnets
                address 77.77.77.77/22 gw-ip-address 77.77.77.1
                address 88.88.88.88/20 gw-ip-address 88.88.88.1
                group-interface ""s100-lag210-vlan101"" create
                    tos-marking-state trusted
                    ipv6
                        router-advertisements
                            managed-configuration
                            no shutdown
                        exit
                        dhcp6
                            proxy-server
                                no shutdown
                            exit
                        exit
                    exit
                exit
            exit
</input>


<group name=""ifaces.{{ name }}"" contains=""ipv4,ipv6"">
## group to match top level interfaces
        interface ""{{ name }}""
            description {{ description | re("".+"") | strip('""') }}
            address  {{ ipv4 | joinmatches('; ') }}
                address {{ ipv6 | contains("":"") | joinmatches('; ') }}
        exit {{ _end_ }}
</group>

<group name=""ifaces.{{ name }}"" contains=""ipv4,ipv6"">
## group to match lower level interfaces
            interface ""{{ name | _start_ }}"" create
            {{ iftype }}-interface ""{{ name | _start_ }}"" create
                description {{ description | re("".+"") | strip('""') | strip }}
                address {{ ipv4 | contains(""."") | joinmatches('; ') }}
                address {{ ipv4 | contains(""."") | joinmatches('; ') }} gw-ip-address {{ ignore }}
            exit {{ _end_ }}
</group>
    " [] $"list")) (VList [VList [VDict [(KS $"ifaces", VDict [(KS $"BNG-RH201-CORE", VDict [(KS $"description", VStr $"BNG-RH201-CORE"); (KS $"ipv4", VStr $"11.11.11.11/31"); (KS $"ipv6", VStr $"1111:0:1111:1111::1/64")]); (KS $"BNG-RH202-CORE", VDict [(KS $"description", VStr $"BNG-RH201-CORE"); (KS $"ipv4", VStr $"22.22.22.22/31"); (KS $"ipv6", VStr $"2222:0:2222:2222::2/64")]); (KS $"OLT-MGT", VDict [(KS $"ipv4", VStr $"55.55.55.55/25")]); (KS $"OTDR-MGT", VDict [(KS $"ipv4", VStr $"44.44.44.44/25")]); (KS $"s100", VDict [(KS $"description", VStr $"Subscriber interface for subscribers"); (KS $"iftype", VStr $"subscriber"); (KS $"ipv4", VStr $"77.77.77.77/22; 88.88.88.88/20")]); (KS $"shunt", VDict [(KS $"iftype", VStr $"redundant"); (KS $"ipv4", VStr $"66.66.66.66/31")]); (KS $"system", VDict [(KS $"ipv4", VStr $"33.33.33.33/32"); (KS $"ipv6", VStr $"3333:0:3333:3333::3/128")])])]]]) = true.
Proof. vm_compute. reflexivity. Qed.

(** test/pytest/test_answers_and_docs.py test_ios_bgp_pers_pars *)
Example answers_and_docs_ios_bgp_pers_pars : is_ (at_ [] (ttp_result (fun _ => None) false sort_set ({| w_file := fun p => assoc p []; w_dir := fun p => assoc p []; w_tdir := None; w_exec := fun _ => out_of_model |}) $"" [] $"
<vars>
defaults_bgp_peers = {
 ""description"": """",
 ""remote-as"": """",
 ""shutdown"": ""no"",
 ""inherit_peer-session"": """",
 ""update-source"": """",
 ""password"": """"
}
</vars>

<group name=""bgp_peers"">
<group name=""{{ ASN }}"">
router bgp {{ ASN }}
 <group name=""{{ PeerIP }}"" default=""defaults_bgp_peers"">
 neighbor {{ PeerIP }} remote-as {{ remote-as }}
 neighbor {{ PeerIP }} description {{ description | ORPHRASE }}
 neighbor {{ PeerIP | let(""shutdown"", ""yes"") }} shutdown
 neighbor {{ PeerIP }} inherit peer-session {{ inherit_peer-session }}
 neighbor {{ PeerIP }} password {{ password | ORPHRASE }}
 neighbor {{ PeerIP }} update-source {{ update-source }}
 </group>
 </group>
</group>
    " [(VStr $"
router bgp 65100
 neighbor 1.1.1.1 remote-as 1234
 neighbor 1.1.1.1 description Some Description here
 neighbor 1.1.1.1 shutdown
 neighbor 1.1.1.1 inherit peer-session session_1
 neighbor 1.1.1.1 password 12345678
 neighbor 1.1.1.1 update-source Loopback 1
 neighbor 1.1.1.2 remote-as 1234
 neighbor 1.1.1.2 inherit peer-session session_1
 neighbor 1.1.1.2 update-source Loopback 1
    ", $"_all_")] $"list")) (VList [VList [VDict [(KS $"bgp_peers", VDict [(KS $"65100", VDict [(KS $"1.1.1.1", VDict [(KS $"description", VStr $"Some Description here"); (KS $"inherit_peer-session", VStr $"session_1"); (KS $"password", VStr $"12345678"); (KS $"remote-as", VStr $"1234"); (KS $"shutdown", VStr $"yes"); (KS $"update-source", VStr $"")]); (KS $"1.1.1.2", VDict [(KS $"description", VStr $""); (KS $"inherit_peer-session", VStr $"session_1"); (KS $"password", VStr $""); (KS $"remote-as", VStr $"1234"); (KS $"shutdown", VStr $"no"); (KS $"update-source", VStr $"")])])])]]]) = true.
Proof. vm_compute. reflexivity. Qed.

(** test/pytest/test_answers_and_docs.py test_asa_acls_issue_55_uses_itemize_with_dynamic_path *)
Example answers_and_docs_asa_acls_issue_55_uses_itemize_with_dynamic_path : is_ (at_ [] (ttp_result (fun _ => None) false sort_set ({| w_file := fun p => assoc p []; w_dir := fun p => assoc p []; w_tdir := None; w_exec := fun _ => out_of_model |}) $"" [] $"
<vars>
SVC_PORTS = ""tcp-udp|tcp|udp""
</vars>

<group name=""object-{{ object_type }}-groups**.{{ object_name }}**"">
object-group {{ object_type }} {{ object_name | _start_ }}
object-group {{ object_type }} {{ object_name | _start_ }} {{ protocol | re(""SVC_PORTS"")}}
 description {{ description | re("".*"") }}

 <group name=""{{ type }}-objects"" itemize=""obj_name"" method=""table"">
 network-object object   {{ obj_name | let(""type"", ""network"") }}
 network-object host     {{ obj_name | IP | let(""type"", ""network"") }}
 group-object            {{ obj_name | let(""type"", ""group"") }}
 service-object object   {{ obj_name | let(""type"", ""service"") }}
 service-object          {{ obj_name | let(""type"", ""service"") }}
 </group>

 <group name=""service-object-ports*"">
 service-object {{ protocol | re(""SVC_PORTS"") }} destination eq {{port}}
 </group>
 
 <group name=""service-object-port-ranges*"">
 service-object {{ protocol | re(""SVC_PORTS"") }} destination range {{port_begin}} {{port_end}}
 </group>

 <group name=""service-port-objects"" itemize=""port_obj"">
 port-object eq {{ port_obj }}
 </group>
 
</group>
    " [(VStr $"
object-group service gokuhead
 service-object tcp-udp destination eq gokurpc 
 service-object tcp destination eq 902 
 service-object tcp destination eq https 
 service-object tcp destination eq nfs 
 service-object tcp destination eq 10025 
object-group network gohan
 network-object object gohan-01
 network-object object gohan-02
 network-object object vlan_944
 network-object object gohan-03
 network-object object gohan-05
 network-object object gohan-06
object-group service sql tcp
 port-object eq 1433
object-group network vegeta
 group-object trunks
 network-object object vegeta-01
object-group network Space-Users
 network-object object ab
 network-object object ac
 network-object object ad
 network-object object ae
 network-object object af
 network-object object ag
 network-object object ah
 network-object object ai
 network-object object aj
object-group network dalmatians
 network-object object dog-01
 group-object trunks
 network-object object vlan_950
 group-object Space-Users
 network-object object Darts-Summary            
    ", $"_all_")] $"list")) (VList [VList [VDict [(KS $"object-network-groups", VDict [(KS $"Space-Users", VDict [(KS $"network-objects", VList [VStr $"ab"; VStr $"ac"; VStr $"ad"; VStr $"ae"; VStr $"af"; VStr $"ag"; VStr $"ah"; VStr $"ai"; VStr $"aj"])]); (KS $"dalmatians", VDict [(KS $"group-objects", VList [VStr $"trunks"; VStr $"Space-Users"]); (KS $"network-objects", VList [VStr $"dog-01"; VStr $"vlan_950"; VStr $"Darts-Summary"])]); (KS $"gohan", VDict [(KS $"network-objects", VList [VStr $"gohan-01"; VStr $"gohan-02"; VStr $"vlan_944"; VStr $"gohan-03"; VStr $"gohan-05"; VStr $"gohan-06"])]); (KS $"vegeta", VDict [(KS $"group-objects", VList [VStr $"trunks"]); (KS $"network-objects", VList [VStr $"vegeta-01"])])]); (KS $"object-service-groups", VDict [(KS $"gokuhead", VDict [(KS $"service-object-ports", VList [VDict [(KS $"port", VStr $"gokurpc"); (KS $"protocol", VStr $"tcp-udp")]; VDict [(KS $"port", VStr $"902"); (KS $"protocol", VStr $"tcp")]; VDict [(KS $"port", VStr $"https"); (KS $"protocol", VStr $"tcp")]; VDict [(KS $"port", VStr $"nfs"); (KS $"protocol", VStr $"tcp")]; VDict [(KS $"port", VStr $"10025"); (KS $"protocol", VStr $"tcp")]])]); (KS $"sql", VDict [(KS $"protocol", VStr $"tcp"); (KS $"service-port-objects", VList [VStr $"1433"])])])]]]) = true.
Proof. vm_compute. reflexivity. Qed.

(** test/pytest/test_answers_and_docs.py test_issue_57_headers_parsing *)
Example answers_and_docs_issue_57_headers_parsing : is_ (at_ [] (ttp_result (fun _ => None) false sort_set ({| w_file := fun p => assoc p []; w_dir := fun p => assoc p []; w_tdir := None; w_exec := fun _ => out_of_model |}) $"" [] $"
<group name = ""interfaces"">
<group name=""routed"">
Brief information on interfaces in route mode: {{ _start_ }}
<group name = ""{{Interface}}"">
Interface            Link Protocol Primary_IP      Description {{ _headers_ }}
</group>
{{ _end_ }}
</group>

<group name=""bridged"">
Brief information on interfaces in bridge mode: {{ _start_ }}
<group name = ""{{Interface}}"">
Interface            Link Speed   Duplex Type PVID Description {{ _headers_ }}
</group>
{{ _end_ }}
</group>
</group>
    " [(VStr $"
Brief information on interfaces in route mode:
Link: ADM - administratively down; Stby - standby
Protocol: (s) - spoofing
Interface            Link Protocol Primary IP      Description                
InLoop0              UP   UP(s)    --                                         
REG0                 UP   --       --                                         
Vlan401              UP   UP       10.251.147.36       HSSBC_to_inband_mgmt_r4

Brief information on interfaces in bridge mode:
Link: ADM - administratively down; Stby - standby
Speed: (a) - auto
Duplex: (a)/A - auto; H - half; F - full
Type: A - access; T - trunk; H - hybrid
Interface            Link Speed   Duplex Type PVID Description                
BAGG1                UP   20G(a)  F(a)   T    1            to-KDC-R4.10-Core-1
BAGG14               UP   10G(a)  F(a)   T    1    KDC-R429-E1 BackUp Chassis 
BAGG22               UP   20G(a)  F(a)   T    1                    HSSBC-NS-01
FGE1/0/49            DOWN auto    A      A    1                               
XGE1/0/1             UP   10G(a)  F(a)   T    1    KDC-R402-E1 Backup Chassis 

    ", $"_all_")] $"list")) (VList [VList [VDict [(KS $"interfaces", VDict [(KS $"bridged", VDict [(KS $"BAGG1", VDict [(KS $"Description", VStr $"to-KDC-R4.10-Core-1"); (KS $"Duplex", VStr $"F(a)"); (KS $"Link", VStr $"UP"); (KS $"PVID", VStr $"1"); (KS $"Speed", VStr $"20G(a)"); (KS $"Type", VStr $"T")]); (KS $"BAGG14", VDict [(KS $"Description", VStr $"KDC-R429-E1 BackUp Chassis"); (KS $"Duplex", VStr $"F(a)"); (KS $"Link", VStr $"UP"); (KS $"PVID", VStr $"1"); (KS $"Speed", VStr $"10G(a)"); (KS $"Type", VStr $"T")]); (KS $"BAGG22", VDict [(KS $"Description", VStr $"HSSBC-NS-01"); (KS $"Duplex", VStr $"F(a)"); (KS $"Link", VStr $"UP"); (KS $"PVID", VStr $"1"); (KS $"Speed", VStr $"20G(a)"); (KS $"Type", VStr $"T")]); (KS $"FGE1/0/49", VDict [(KS $"Description", VStr $""); (KS $"Duplex", VStr $"A"); (KS $"Link", VStr $"DOWN"); (KS $"PVID", VStr $"1"); (KS $"Speed", VStr $"auto"); (KS $"Type", VStr $"A")]); (KS $"Link: ADM - administr", VDict [(KS $"Description", VStr $""); (KS $"Duplex", VStr $"Stby -"); (KS $"Link", VStr $"ative"); (KS $"PVID", VStr $"dby"); (KS $"Speed", VStr $"ly down;"); (KS $"Type", VStr $"stan")]); (KS $"XGE1/0/1", VDict [(KS $"Description", VStr $"KDC-R402-E1 Backup Chassis"); (KS $"Duplex", VStr $"F(a)"); (KS $"Link", VStr $"UP"); (KS $"PVID", VStr $"1"); (KS $"Speed", VStr $"10G(a)"); (KS $"Type", VStr $"T")])]); (KS $"routed", VDict [(KS $"InLoop0", VDict [(KS $"Description", VStr $""); (KS $"Link", VStr $"UP"); (KS $"Primary_IP", VStr $"--"); (KS $"Protocol", VStr $"UP(s)")]); (KS $"Link: ADM - administr", VDict [(KS $"Description", VStr $""); (KS $"Link", VStr $"ative"); (KS $"Primary_IP", VStr $"Stby - standby"); (KS $"Protocol", VStr $"ly down;")]); (KS $"REG0", VDict [(KS $"Description", VStr $""); (KS $"Link", VStr $"UP"); (KS $"Primary_IP", VStr $"--"); (KS $"Protocol", VStr $"--")]); (KS $"Vlan401", VDict [(KS $"Description", VStr $"HSSBC_to_inband_mgmt_r4"); (KS $"Link", VStr $"UP"); (KS $"Primary_IP", VStr $"10.251.147.36"); (KS $"Protocol", VStr $"UP")])])])]]]) = true.
Proof. vm_compute. reflexivity. Qed.

(** test/pytest/test_answers_and_docs.py test_interface_template_not_collecting_all_data_reduced *)
Example answers_and_docs_interface_template_not_collecting_all_data_reduced : is_ (at_ [] (ttp_result (fun _ => None) false sort_set ({| w_file := fun p => assoc p []; w_dir := fun p => assoc p []; w_tdir := None; w_exec := fun _ => out_of_model |}) $"" [] $"
<group name=""interfaces"">

## matches primary interfaces
<group>
interface {{ interface }}
 <group name=""ipv4*"" method=""table"" containsall=""ipv4"">
 ipv4 address {{ ipv4 | _line_ | _exact_ }}
 </group>
 mac-address {{ mac_address }}
</group>

## matches sub-interfaces
<group>
interface {{ interface }} l2transport
 mac-address {{ mac_address }}
</group>

</group>      
    " [(VStr $"
interface TenGigE0/0/0/5.100 l2transport
!
interface BVI101
 ipv4 address 192.168.101.1 255.255.255.0
 mac-address 200.b19.4321
!
    ", $"_all_")] $"list")) (VList [VList [VDict [(KS $"interfaces", VList [VDict [(KS $"interface", VStr $"TenGigE0/0/0/5.100")]; VDict [(KS $"interface", VStr $"BVI101"); (KS $"ipv4", VList [VDict [(KS $"ipv4", VStr $"192.168.101.1 255.255.255.0")]]); (KS $"mac_address", VStr $"200.b19.4321")]])]]]) = true.
Proof. vm_compute. reflexivity. Qed.

(** test/pytest/test_answers_and_docs.py test_issue_57_one_more *)
Example answers_and_docs_issue_57_one_more : is_ (at_ [] (ttp_result (fun _ => None) false sort_set ({| w_file := fun p => assoc p []; w_dir := fun p => assoc p []; w_tdir := None; w_exec := fun _ => out_of_model |}) $"" [] $"
<group name = ""portchannel.{{channel_number}}"">
Aggregate Interface: Bridge-Aggregation{{ channel_number}}

<group name = ""local_members*"" void="""">
Local: {{_start_}}
  <group>
  {{interface  | exclude(""Port"") }} {{status}} {{priority}} {{oper_key }} {{flag}}
  </group>
</group>

<group name = ""remote_members*"">
  {{interface }} {{status}} {{priority}} {{oper_key}} {{sys_id}}, {{ mac | MAC }} {{flag}}
</group>

</group>
    " [(VStr $"
Loadsharing Type: Shar -- Loadsharing, NonS -- Non-Loadsharing
Port Status: S -- Selected, U -- Unselected,
             I -- Individual, * -- Management port
Flags:  A -- LACP_Activity, B -- LACP_Timeout, C -- Aggregation,
        D -- Synchronization, E -- Collecting, F -- Distributing,
        G -- Defaulted, H -- Expired

Aggregate Interface: Bridge-Aggregation1
Aggregation Mode: Dynamic
Loadsharing Type: Shar
Management VLAN : None
System ID: 0x8000, d07e-28b5-a200
Local:
  Port             Status  Priority Oper-Key  Flag
--------------------------------------------------------------------------------
  GE6/0/1          U       32768    1         {ACG}
  GE6/0/2          U       32768    1         {ACG}
Remote:
  Actor            Partner Priority Oper-Key  SystemID               Flag
--------------------------------------------------------------------------------
  GE6/0/1          0       32768    0         0x8000, 0000-0000-0000 {EF}
  GE6/0/2          0       32768    0         0x8000, 0000-0000-0000 {EF}

Aggregate Interface: Bridge-Aggregation2
Aggregation Mode: Dynamic
Loadsharing Type: Shar
Management VLAN : None
System ID: 0x8000, d07e-28b5-a200
Local:
  Port             Status  Priority Oper-Key  Flag
--------------------------------------------------------------------------------
  GE6/0/3          U       32768    2         {ACG}
  GE6/0/4          U       32768    2         {ACG}
Remote:
  Actor            Partner Priority Oper-Key  SystemID               Flag
--------------------------------------------------------------------------------
  GE6/0/3          0       32768    0         0x8000, 0000-0000-0000 {EF}
  GE6/0/4          0       32768    0         0x8000, 0000-0000-0000 {EF}
    ", $"_all_")] $"list")) (VList [VList [VDict [(KS $"portchannel", VDict [(KS $"1", VDict [(KS $"local_members", VList [VDict [(KS $"flag", VStr $"{ACG}"); (KS $"interface", VStr $"GE6/0/1"); (KS $"oper_key", VStr $"1"); (KS $"priority", VStr $"32768"); (KS $"status", VStr $"U")]; VDict [(KS $"flag", VStr $"{ACG}"); (KS $"interface", VStr $"GE6/0/2"); (KS $"oper_key", VStr $"1"); (KS $"priority", VStr $"32768"); (KS $"status", VStr $"U")]]); (KS $"remote_members", VList [VDict [(KS $"flag", VStr $"{EF}"); (KS $"interface", VStr $"GE6/0/1"); (KS $"mac", VStr $"0000-0000-0000"); (KS $"oper_key", VStr $"0"); (KS $"priority", VStr $"32768"); (KS $"status", VStr $"0"); (KS $"sys_id", VStr $"0x8000")]; VDict [(KS $"flag", VStr $"{EF}"); (KS $"interface", VStr $"GE6/0/2"); (KS $"mac", VStr $"0000-0000-0000"); (KS $"oper_key", VStr $"0"); (KS $"priority", VStr $"32768"); (KS $"status", VStr $"0"); (KS $"sys_id", VStr $"0x8000")]])]); (KS $"2", VDict [(KS $"local_members", VList [VDict [(KS $"flag", VStr $"{ACG}"); (KS $"interface", VStr $"GE6/0/3"); (KS $"oper_key", VStr $"2"); (KS $"priority", VStr $"32768"); (KS $"status", VStr $"U")]; VDict [(KS $"flag", VStr $"{ACG}"); (KS $"interface", VStr $"GE6/0/4"); (KS $"oper_key", VStr $"2"); (KS $"priority", VStr $"32768"); (KS $"status", VStr $"U")]]); (KS $"remote_members", VList [VDict [(KS $"flag", VStr $"{EF}"); (KS $"interface", VStr $"GE6/0/3"); (KS $"mac", VStr $"0000-0000-0000"); (KS $"oper_key", VStr $"0"); (KS $"priority", VStr $"32768"); (KS $"status", VStr $"0"); (KS $"sys_id", VStr $"0x8000")]; VDict [(KS $"flag", VStr $"{EF}"); (KS $"interface", VStr $"GE6/0/4"); (KS $"mac", VStr $"0000-0000-0000"); (KS $"oper_key", VStr $"0"); (KS $"priority", VStr $"32768"); (KS $"status", VStr $"0"); (KS $"sys_id", VStr $"0x8000")]])])])]]]) = true.
Proof. vm_compute. reflexivity. Qed.

(** test/pytest/test_answers_and_docs.py test_issue_57_one_more_empty_dict_in_res *)
Example answers_and_docs_issue_57_one_more_empty_dict_in_res : is_ (at_ [] (ttp_result (fun _ => None) false sort_set ({| w_file := fun p => assoc p []; w_dir := fun p => assoc p []; w_tdir := None; w_exec := fun _ => out_of_model |}) $"" [] $"
<group name = ""portchannel.{{channel_number}}"">
Aggregate Interface: Bridge-Aggregation{{ channel_number}}

<group name = ""local_members*"">
Local: {{_start_}}
  <group>
  {{interface }} {{status}} {{priority}} {{oper_key | DIGIT }} {{flag}}
  </group>
</group>

<group name = ""remote_members*"">
Remote: {{_start_}}
  <group>
  {{interface }} {{status}} {{priority}} {{oper_key}} {{sys_id}}, {{ mac | MAC }} {{flag}}
  </group>
</group>

</group>
    " [(VStr $"
Loadsharing Type: Shar -- Loadsharing, NonS -- Non-Loadsharing
Port Status: S -- Selected, U -- Unselected,
             I -- Individual, * -- Management port
Flags:  A -- LACP_Activity, B -- LACP_Timeout, C -- Aggregation,
        D -- Synchronization, E -- Collecting, F -- Distributing,
        G -- Defaulted, H -- Expired

Aggregate Interface: Bridge-Aggregation1
Aggregation Mode: Dynamic
Loadsharing Type: Shar
Management VLAN : None
System ID: 0x8000, d07e-28b5-a200
Local:
  Port             Status  Priority Oper-Key  Flag
--------------------------------------------------------------------------------
  GE6/0/1          U       32768    1         {ACG}
  GE6/0/2          U       32768    1         {ACG}
Remote:
  Actor            Partner Priority Oper-Key  SystemID               Flag
--------------------------------------------------------------------------------
  GE6/0/1          0       32768    0         0x8000, 0000-0000-0000 {EF}
  GE6/0/2          0       32768    0         0x8000, 0000-0000-0000 {EF}

Aggregate Interface: Bridge-Aggregation2
Aggregation Mode: Dynamic
Loadsharing Type: Shar
Management VLAN : None
System ID: 0x8000, d07e-28b5-a200
Local:
  Port             Status  Priority Oper-Key  Flag
--------------------------------------------------------------------------------
  GE6/0/3          U       32768    2         {ACG}
  GE6/0/4          U       32768    2         {ACG}
Remote:
  Actor            Partner Priority Oper-Key  SystemID               Flag
--------------------------------------------------------------------------------
  GE6/0/3          0       32768    0         0x8000, 0000-0000-0000 {EF}
  GE6/0/4          0       32768    0         0x8000, 0000-0000-0000 {EF}
    ", $"_all_")] $"list")) (VList [VList [VDict [(KS $"portchannel", VDict [(KS $"1", VDict [(KS $"local_members", VList [VDict [(KS $"flag", VStr $"{ACG}"); (KS $"interface", VStr $"GE6/0/1"); (KS $"oper_key", VStr $"1"); (KS $"priority", VStr $"32768"); (KS $"status", VStr $"U")]; VDict [(KS $"flag", VStr $"{ACG}"); (KS $"interface", VStr $"GE6/0/2"); (KS $"oper_key", VStr $"1"); (KS $"priority", VStr $"32768"); (KS $"status", VStr $"U")]]); (KS $"remote_members", VList [VDict [(KS $"flag", VStr $"{EF}"); (KS $"interface", VStr $"GE6/0/1"); (KS $"mac", VStr $"0000-0000-0000"); (KS $"oper_key", VStr $"0"); (KS $"priority", VStr $"32768"); (KS $"status", VStr $"0"); (KS $"sys_id", VStr $"0x8000")]; VDict [(KS $"flag", VStr $"{EF}"); (KS $"interface", VStr $"GE6/0/2"); (KS $"mac", VStr $"0000-0000-0000"); (KS $"oper_key", VStr $"0"); (KS $"priority", VStr $"32768"); (KS $"status", VStr $"0"); (KS $"sys_id", VStr $"0x8000")]])]); (KS $"2", VDict [(KS $"local_members", VList [VDict [(KS $"flag", VStr $"{ACG}"); (KS $"interface", VStr $"GE6/0/3"); (KS $"oper_key", VStr $"2"); (KS $"priority", VStr $"32768"); (KS $"status", VStr $"U")]; VDict [(KS $"flag", VStr $"{ACG}"); (KS $"interface", VStr $"GE6/0/4"); (KS $"oper_key", VStr $"2"); (KS $"priority", VStr $"32768"); (KS $"status", VStr $"U")]]); (KS $"remote_members", VList [VDict [(KS $"flag", VStr $"{EF}"); (KS $"interface", VStr $"GE6/0/3"); (KS $"mac", VStr $"0000-0000-0000"); (KS $"oper_key", VStr $"0"); (KS $"priority", VStr $"32768"); (KS $"status", VStr $"0"); (KS $"sys_id", VStr $"0x8000")]; VDict [(KS $"flag", VStr $"{EF}"); (KS $"interface", VStr $"GE6/0/4"); (KS $"mac", VStr $"0000-0000-0000"); (KS $"oper_key", VStr $"0"); (KS $"priority", VStr $"32768"); (KS $"status", VStr $"0"); (KS $"sys_id", VStr $"0x8000")]])])])]]]) = true.
Proof. vm_compute. reflexivity. Qed.

(** test/pytest/test_answers_and_docs.py test_issue_62_fix *)
Example answers_and_docs_issue_62_fix : is_ (at_ [] (ttp_result (fun _ => None) false sort_set ({| w_file := fun p => assoc p []; w_dir := fun p => assoc p []; w_tdir := None; w_exec := fun _ => out_of_model |}) $"" [] $"
<group name = '{{ nameif }}'>
{{ nameif | ORPHRASE }}:

<group name=""rx"">
    received (in {{ ignore }} secs): {{ _start_ }}
        {{ rpps }} pkts/sec    41010 bytes/sec
</group>

<group name=""tx"">
    transmitted (in {{ ignore }} secs): {{ _start_ }}
        {{ tpps }} pkts/sec    0 bytes/sec
</group>

</group>
    " [(VStr $"
security:
    received (in 351815.564 secs):
        220203204 packets    14522703007 bytes
        3 pkts/sec    41010 bytes/sec
    transmitted (in 351815 secs):
        0 packets    0 bytes
        0 pkts/sec    0 bytes/sec
    ", $"_all_")] $"list")) (VList [VList [VDict [(KS $"security", VDict [(KS $"rx", VDict [(KS $"rpps", VStr $"3")]); (KS $"tx", VDict [(KS $"tpps", VStr $"0")])])]]]) = true.
Proof. vm_compute. reflexivity. Qed.

(** test/pytest/test_answers_and_docs.py test_stackoverflow_62421344_python_parse_text *)
Example answers_and_docs_stackoverflow_62421344_python_parse_text : is_ (at_ [] (ttp_result (fun _ => None) false sort_set ({| w_file := fun p => assoc p []; w_dir := fun p => assoc p []; w_tdir := None; w_exec := fun _ => out_of_model |}) $"" [] $"
<group contains=""value"">
1. main1: {{ _start_ }}
     {{ ignore }} {{ date }} {{ hour | lessthan(""12"") }} {{ value | greaterthan(""4000"") }}
</group>     
    " [(VStr $"
JAVA_OPTS=blablalba
lbalbalba

1. main1:

     aelo1 2020-06-15 11 4001
     sddg2 2020-06-12 19 422

2. main2:

     fdata3 2020-06-16 11 4422
     gcontent4 2020-06-12 19 422

3. main3:

     hxvnt5 2020-06-17 11 4002
     vcfdet6 2020-06-12 19 422
    ", $"_all_")] $"list")) (VList [VList [VList [VDict [(KS $"date", VStr $"2020-06-15"); (KS $"hour", VStr $"11"); (KS $"value", VStr $"4001")]; VDict [(KS $"date", VStr $"2020-06-16"); (KS $"hour", VStr $"11"); (KS $"value", VStr $"4422")]; VDict [(KS $"date", VStr $"2020-06-17"); (KS $"hour", VStr $"11"); (KS $"value", VStr $"4002")]]]]) = true.
Proof. vm_compute. reflexivity. Qed.

(** test/pytest/test_answers_and_docs.py test_to_int_with_dynamic_path_issue_67 *)
Example answers_and_docs_to_int_with_dynamic_path_issue_67 : is_ (at_ [] (ttp_result (fun _ => None) true sort_set ({| w_file := fun p => assoc p []; w_dir := fun p => assoc p []; w_tdir := None; w_exec := fun _ => out_of_model |}) $"" [] $"
<group name=""foo**.{{ domain_id }}**"">
foo domain {{ domain_id | DIGIT | to_int | _start_ }}
  bar {{ bar | DIGIT | to_int }}
  biz {{ biz | default(false) | set(true) }}
  baz {{ baz | default(false) | set(true) }}
</group>    
    " [(VStr $"
foo domain 100
  bar 123
  biz
  baz
foo domain 101
  bar 234
  biz
foo domain 102
  bar 345   
    ", $"_all_")] $"list")) (VList [VList [VDict [(KS $"foo", VDict [(KI (100), VDict [(KS $"bar", VInt (123)); (KS $"baz", VBool true); (KS $"biz", VBool true)]); (KI (101), VDict [(KS $"bar", VInt (234)); (KS $"baz", VBool false); (KS $"biz", VBool true)]); (KI (102), VDict [(KS $"bar", VInt (345)); (KS $"baz", VBool false); (KS $"biz", VBool false)])])]]]) = true.
Proof. vm_compute. reflexivity. Qed.

(** test/pytest/test_answers_and_docs.py test_issue_94 *)
Example answers_and_docs_issue_94 : is_ (at_ [] (ttp_result (fun _ => None) false sort_set ({| w_file := fun p => assoc p []; w_dir := fun p => assoc p []; w_tdir := None; w_exec := fun _ => out_of_model |}) $"" [] $"
<group name=""routing.isis.LAB"" default=""MISSING"">
router isis LAB {{ _start_ |  _exact_ }}
 
 <group name=""fa128"" default=""MISSING"">
 flex-algo 128 {{ _start_ |  _exact_ }}
  priority {{ priority | equal('999') }}
  metric-type {{ metric_type | equal('delay') }}
  advertise-definition {{ advertise_definition | set('true') }}
  prefix-metric {{ prefix_metric | set('true') }}
 !{{ _end_ }}
 </group>
 
 <group name=""LEFTOVER"">
 {{ LEFTOVER | _line_ | joinmatches }}
 </group>

!{{ _end_ }}
</group>    
    " [(VStr $"
router isis LAB
 flex-algo 128
  priority 100
  metric-type delay
  advertise-definition
  prefix-metric
 !
 address-family ipv4 unicast
  metric-style wide
 !
!
    ", $"_all_")] $"list")) (VList [VList [VDict [(KS $"routing", VDict [(KS $"isis", VDict [(KS $"LAB", VDict [(KS $"LEFTOVER", VList [VDict [(KS $"LEFTOVER", VStr $" priority 100")]; VDict [(KS $"LEFTOVER", VStr $"address-family ipv4 unicast")]; VDict [(KS $"LEFTOVER", VStr $" metric-style wide")]]); (KS $"fa128", VDict [(KS $"advertise_definition", VStr $"true"); (KS $"metric_type", VStr $"delay"); (KS $"prefix_metric", VStr $"true"); (KS $"priority", VStr $"MISSING")])])])])]]]) = true.
Proof. vm_compute. reflexivity. Qed.

(** test/pytest/test_empty_group_results.py test_empty_group_results *)
Example empty_group_results_empty_group_results : is_ (at_ [] (ttp_result (fun _ => None) false sort_set ({| w_file := fun p => assoc p []; w_dir := fun p => assoc p []; w_tdir := None; w_exec := fun _ => out_of_model |}) $"" [] $"
<input load=""text"">
vlan 1234
 name some_vlan
vlan 5678
vlan 910
 name one_more
vlan 777
</input>

<group name=""vlans.{{ vlan }}"">
vlan {{ vlan }}
 name {{ name }}
</group>
" [] $"list")) (VList [VList [VDict [(KS $"vlans", VDict [(KS $"1234", VDict [(KS $"name", VStr $"some_vlan")]); (KS $"5678", VDict []); (KS $"777", VDict []); (KS $"910", VDict [(KS $"name", VStr $"one_more")])])]]]) = true.
Proof. vm_compute. reflexivity. Qed.

(** test/pytest/test_extend_tag.py test_extend_tag_from_file_anonymous *)
Example extend_tag_extend_tag_from_file_anonymous : is_ (at_ [] (ttp_result (fun _ => None) false sort_set ({| w_file := fun p => assoc p [($"./assets/extend_vlan_anon.txt", $"vlan {{ vlan }}
 name {{ name }}"); ($"././assets/extend_vlan_anon.txt", $"vlan {{ vlan }}
 name {{ name }}"); ($".//assets/extend_vlan_anon.txt", $"vlan {{ vlan }}
 name {{ name }}")]; w_dir := fun p => assoc p []; w_tdir := None; w_exec := fun _ => out_of_model |}) $"" [] $"
<extend template=""./assets/extend_vlan_anon.txt""/>
    " [(VStr $"
vlan 1234
 name some_vlan
!
vlan 910
 name one_more
!
    ", $"_all_")] $"list")) (VList [VList [VList [VDict [(KS $"name", VStr $"some_vlan"); (KS $"vlan", VStr $"1234")]; VDict [(KS $"name", VStr $"one_more"); (KS $"vlan", VStr $"910")]]]]) = true.
Proof. vm_compute. reflexivity. Qed.

(** test/pytest/test_extend_tag.py test_extend_tag_within_group *)
Example extend_tag_extend_tag_within_group : is_ (at_ [] (ttp_result (fun _ => None) false sort_set ({| w_file := fun p => assoc p [($".//assets/test_extend_tag_within_group.txt", $"<group name=""config"">
 router-id {{ rid }}
</group>"); ($"./assets/test_extend_tag_within_group.txt", $"<group name=""config"">
 router-id {{ rid }}
</group>"); ($"././assets/test_extend_tag_within_group.txt", $"<group name=""config"">
 router-id {{ rid }}
</group>")]; w_dir := fun p => assoc p []; w_tdir := None; w_exec := fun _ => out_of_model |}) $"" [] $"
<input load=""text"">
router bgp 65100
 router-id 1.1.1.1
 neighbor 2.2.2.2 remote-as 65000
</input>

<group name=""bgp_config"">
router bgp {{ bgp_as }}

<extend template=""./assets/test_extend_tag_within_group.txt""/>

<group name=""peers"">
 neighbor {{ peer }} remote-as {{ asn }}
</group>

</group> 
    " [] $"list")) (VList [VList [VDict [(KS $"bgp_config", VDict [(KS $"bgp_as", VStr $"65100"); (KS $"config", VDict [(KS $"rid", VStr $"1.1.1.1")]); (KS $"peers", VDict [(KS $"asn", VStr $"65000"); (KS $"peer", VStr $"2.2.2.2")])])]]]) = true.
Proof. vm_compute. reflexivity. Qed.

(** test/pytest/test_extend_tag.py test_extend_tag_within_group_with_non_hierarch_template *)
Example extend_tag_extend_tag_within_group_with_non_hierarch_template : is_ (at_ [] (ttp_result (fun _ => None) false sort_set ({| w_file := fun p => assoc p [($"./assets/test_extend_tag_within_group_with_non_hierarch_template.txt", $" router-id {{ rid }}"); ($"././assets/test_extend_tag_within_group_with_non_hierarch_template.txt", $" router-id {{ rid }}"); ($".//assets/test_extend_tag_within_group_with_non_hierarch_template.txt", $" router-id {{ rid }}")]; w_dir := fun p => assoc p []; w_tdir := None; w_exec := fun _ => out_of_model |}) $"" [] $"
<input load=""text"">
router bgp 65100
 router-id 1.1.1.1
 neighbor 2.2.2.2 remote-as 65000
</input>

<group name=""bgp_config"">
router bgp {{ bgp_as }}

<group name=""config"">
<extend template=""./assets/test_extend_tag_within_group_with_non_hierarch_template.txt""/>
</group>

<group name=""peers"">
 neighbor {{ peer }} remote-as {{ asn }}
</group>

</group> 
    " [] $"list")) (VList [VList [VDict [(KS $"bgp_config", VDict [(KS $"bgp_as", VStr $"65100"); (KS $"config", VDict [(KS $"rid", VStr $"1.1.1.1")]); (KS $"peers", VDict [(KS $"asn", VStr $"65000"); (KS $"peer", VStr $"2.2.2.2")])])]]]) = true.
Proof. vm_compute. reflexivity. Qed.

(** test/pytest/test_extend_tag.py test_extend_tag_within_group_with_multiple_groups *)
Example extend_tag_extend_tag_within_group_with_multiple_groups : is_ (at_ [] (ttp_result (fun _ => None) false sort_set ({| w_file := fun p => assoc p [($".//assets/test_extend_tag_within_group_with_multiple_groups.txt", $"<group name=""config"">
 router-id {{ rid }}
</group>

<group name=""vrf.{{ vrf }}"">
 address-family ipv4 vrf {{ vrf }}
</group>"); ($"./assets/test_extend_tag_within_group_with_multiple_groups.txt", $"<group name=""config"">
 router-id {{ rid }}
</group>

<group name=""vrf.{{ vrf }}"">
 address-family ipv4 vrf {{ vrf }}
</group>"); ($"././assets/test_extend_tag_within_group_with_multiple_groups.txt", $"<group name=""config"">
 router-id {{ rid }}
</group>

<group name=""vrf.{{ vrf }}"">
 address-family ipv4 vrf {{ vrf }}
</group>")]; w_dir := fun p => assoc p []; w_tdir := None; w_exec := fun _ => out_of_model |}) $"" [] $"
<input load=""text"">
router bgp 65100
 router-id 1.1.1.1
 neighbor 2.2.2.2 remote-as 65000
 neighbor 2.2.2.3 remote-as 65001
 ! 
 address-family ipv4 vrf TEST_1
 address-family ipv4 vrf TEST_2
</input>

<group name=""bgp_config"">
router bgp {{ bgp_as }}

<extend template=""./assets/test_extend_tag_within_group_with_multiple_groups.txt""/>

<group name=""peers"">
 neighbor {{ peer }} remote-as {{ asn }}
</group>

</group> 
    " [] $"list")) (VList [VList [VDict [(KS $"bgp_config", VDict [(KS $"bgp_as", VStr $"65100"); (KS $"config", VDict [(KS $"rid", VStr $"1.1.1.1")]); (KS $"peers", VList [VDict [(KS $"asn", VStr $"65000"); (KS $"peer", VStr $"2.2.2.2")]; VDict [(KS $"asn", VStr $"65001"); (KS $"peer", VStr $"2.2.2.3")]]); (KS $"vrf", VDict [(KS $"TEST_1", VDict []); (KS $"TEST_2", VDict [])])])]]]) = true.
Proof. vm_compute. reflexivity. Qed.

(** test/pytest/test_extend_tag.py test_extend_tag_from_file_group_index_filter *)
Example extend_tag_extend_tag_from_file_group_index_filter : is_ (at_ [] (ttp_result (fun _ => None) false sort_set ({| w_file := fun p => assoc p [($"./assets/extend_groups_filter_test.txt", $"<group name=""vlans_2.{{ vlan }}"">
vlan {{ vlan_2 }}
 name {{ name_2 }}
</group>

<group name=""vlans.{{ vlan }}"">
vlan {{ vlan }}
 name {{ name }}
</group>"); ($"././assets/extend_groups_filter_test.txt", $"<group name=""vlans_2.{{ vlan }}"">
vlan {{ vlan_2 }}
 name {{ name_2 }}
</group>

<group name=""vlans.{{ vlan }}"">
vlan {{ vlan }}
 name {{ name }}
</group>"); ($".//assets/extend_groups_filter_test.txt", $"<group name=""vlans_2.{{ vlan }}"">
vlan {{ vlan_2 }}
 name {{ name_2 }}
</group>

<group name=""vlans.{{ vlan }}"">
vlan {{ vlan }}
 name {{ name }}
</group>")]; w_dir := fun p => assoc p []; w_tdir := None; w_exec := fun _ => out_of_model |}) $"" [] $"
<extend template=""./assets/extend_groups_filter_test.txt"" groups=""1""/>
    " [(VStr $"
vlan 1234
 name some_vlan
!
vlan 910
 name one_more
!
    ", $"_all_")] $"list")) (VList [VList [VDict [(KS $"vlans", VDict [(KS $"1234", VDict [(KS $"name", VStr $"some_vlan")]); (KS $"910", VDict [(KS $"name", VStr $"one_more")])])]]]) = true.
Proof. vm_compute. reflexivity. Qed.

(** test/pytest/test_extend_tag.py test_extend_tag_from_file_with_vars_inputs_filter *)
Example extend_tag_extend_tag_from_file_with_vars_inputs_filter : is_ (at_ [] (ttp_result (fun _ => None) false sort_set ({| w_file := fun p => assoc p [($".//assets/extend_test_inputs_filter.txt", $"<input name=""vlan_1"" load=""text"">
vlan 1234
 name some_vlan
!
vlan 910
 name one_more
!
</input>


<input name=""vlan_2"" load=""text"">
vlan 4321
 name vlan_name_4321
!
vlan 700
 name another_vlan
!
</input>


<input load=""text"">
vlan 123
 name vlan_name_123
!
vlan 800
 name another_vlan_800
!
</input>


<input name=""vlan_3"" load=""text"">
vlan 777
 name vlan_name_777
</input>


<vars name=""some"">
a = 1
b = 2
</vars>"); ($"./assets/extend_test_inputs_filter.txt", $"<input name=""vlan_1"" load=""text"">
vlan 1234
 name some_vlan
!
vlan 910
 name one_more
!
</input>


<input name=""vlan_2"" load=""text"">
vlan 4321
 name vlan_name_4321
!
vlan 700
 name another_vlan
!
</input>


<input load=""text"">
vlan 123
 name vlan_name_123
!
vlan 800
 name another_vlan_800
!
</input>


<input name=""vlan_3"" load=""text"">
vlan 777
 name vlan_name_777
</input>


<vars name=""some"">
a = 1
b = 2
</vars>"); ($"././assets/extend_test_inputs_filter.txt", $"<input name=""vlan_1"" load=""text"">
vlan 1234
 name some_vlan
!
vlan 910
 name one_more
!
</input>


<input name=""vlan_2"" load=""text"">
vlan 4321
 name vlan_name_4321
!
vlan 700
 name another_vlan
!
</input>


<input load=""text"">
vlan 123
 name vlan_name_123
!
vlan 800
 name another_vlan_800
!
</input>


<input name=""vlan_3"" load=""text"">
vlan 777
 name vlan_name_777
</input>


<vars name=""some"">
a = 1
b = 2
</vars>")]; w_dir := fun p => assoc p []; w_tdir := None; w_exec := fun _ => out_of_model |}) $"" [] $"
<extend template=""./assets/extend_test_inputs_filter.txt"" inputs=""vlan_1, vlan_3""/>

<group name=""vlans.{{ vlan }}"">
vlan {{ vlan }}
 name {{ name }}
</group>
    " [] $"list")) (VList [VList [VDict [(KS $"some", VDict [(KS $"a", VInt (1)); (KS $"b", VInt (2))]); (KS $"vlans", VDict [(KS $"1234", VDict [(KS $"name", VStr $"some_vlan")]); (KS $"910", VDict [(KS $"name", VStr $"one_more")])])]; VDict [(KS $"some", VDict [(KS $"a", VInt (1)); (KS $"b", VInt (2))]); (KS $"vlans", VDict [(KS $"777", VDict [(KS $"name", VStr $"vlan_name_777")])])]]]) = true.
Proof. vm_compute. reflexivity. Qed.

(** test/pytest/test_extend_tag.py test_extend_tag_from_file_nested_group_filter *)
Example extend_tag_extend_tag_from_file_nested_group_filter : is_ (at_ [] (ttp_result (fun _ => None) false sort_set ({| w_file := fun p => assoc p [($".//assets/extend_test_nested_group_filter.txt", $"<group name=""ip_primary"">
 ip address {{ ip }} {{ mask }}
</group>

<group name=""ip_secondary"">
 ip address {{ ip }} {{ mask }} secondary
</group>"); ($"./assets/extend_test_nested_group_filter.txt", $"<group name=""ip_primary"">
 ip address {{ ip }} {{ mask }}
</group>

<group name=""ip_secondary"">
 ip address {{ ip }} {{ mask }} secondary
</group>"); ($"././assets/extend_test_nested_group_filter.txt", $"<group name=""ip_primary"">
 ip address {{ ip }} {{ mask }}
</group>

<group name=""ip_secondary"">
 ip address {{ ip }} {{ mask }} secondary
</group>")]; w_dir := fun p => assoc p []; w_tdir := None; w_exec := fun _ => out_of_model |}) $"" [] $"
<group name=""interfaces"">
interface {{ interface }}
 description {{ description }}
 shutdown {{ disabled | set(True) }}
 <extend template=""./assets/extend_test_nested_group_filter.txt"" groups=""ip_primary""/>
</group>
    " [(VStr $"
interface Gi1
 description bla bla bla
 ip address 1.1.1.1 255.255.255.0
!
interface Gi2
 name bla bla
 shutdown
 ip address 1.1.2.1 255.255.255.0
!
    ", $"_all_")] $"list")) (VList [VList [VDict [(KS $"interfaces", VList [VDict [(KS $"interface", VStr $"Gi1"); (KS $"ip_primary", VDict [(KS $"ip", VStr $"1.1.1.1"); (KS $"mask", VStr $"255.255.255.0")])]; VDict [(KS $"disabled", VBool true); (KS $"interface", VStr $"Gi2"); (KS $"ip_primary", VDict [(KS $"ip", VStr $"1.1.2.1"); (KS $"mask", VStr $"255.255.255.0")])]])]]]) = true.
Proof. vm_compute. reflexivity. Qed.

(** test/pytest/test_group_functions.py test_group_default_referencing_variable_parent_group_no_re_two_inputs *)
Example group_functions_group_default_referencing_variable_parent_group_no_re_two_inputs : is_ (at_ [] (ttp_result (fun _ => None) false sort_set ({| w_file := fun p => assoc p []; w_dir := fun p => assoc p []; w_tdir := None; w_exec := fun _ => out_of_model |}) $"" [] $"
<input load=""text"">
Hi World
</input>

<input load=""text"">
Hello World
</input>

<vars>
var_name = {""audiences"": []}
</vars>

<group name='demo**' default=""var_name"">
<group name='audiences*'>
Hello {{ audience }}
</group>
</group>
" [] $"list")) (VList [VList [VDict [(KS $"demo", VDict [(KS $"audiences", VList [])])]; VDict [(KS $"demo", VDict [(KS $"audiences", VList [VDict [(KS $"audience", VStr $"World")]])])]]]) = true.
Proof. vm_compute. reflexivity. Qed.

(** test/pytest/test_group_functions.py test_top_group_default_referencing_variable_dictionary *)
Example group_functions_top_group_default_referencing_variable_dictionary : is_ (at_ [] (ttp_result (fun _ => None) false sort_set ({| w_file := fun p => assoc p []; w_dir := fun p => assoc p []; w_tdir := None; w_exec := fun _ => out_of_model |}) $"" [] $"
<input load=""text"">
device-1#
interface Lo0
!
interface Lo1
 description this interface has description
</input>

<input load=""text"">
device-2#
interface Lo10
!
interface Lo11
 description another interface with description
</input>

<vars>
var_name = {
    ""switchport"": False,
    ""is_l3"": True,
    ""description"": ""Undefined""
}
</vars>

<group name=""interfaces"" default=""var_name"">
interface {{ interface }}
 description {{ description | ORPHRASE }}
</group>
" [] $"list")) (VList [VList [VDict [(KS $"interfaces", VList [VDict [(KS $"description", VStr $"Undefined"); (KS $"interface", VStr $"Lo0"); (KS $"is_l3", VBool true); (KS $"switchport", VBool false)]; VDict [(KS $"description", VStr $"this interface has description"); (KS $"interface", VStr $"Lo1"); (KS $"is_l3", VBool true); (KS $"switchport", VBool false)]])]; VDict [(KS $"interfaces", VList [VDict [(KS $"description", VStr $"Undefined"); (KS $"interface", VStr $"Lo10"); (KS $"is_l3", VBool true); (KS $"switchport", VBool false)]; VDict [(KS $"description", VStr $"another interface with description"); (KS $"interface", VStr $"Lo11"); (KS $"is_l3", VBool true); (KS $"switchport", VBool false)]])]]]) = true.
Proof. vm_compute. reflexivity. Qed.

(** test/pytest/test_group_functions.py test_child_group_default_referencing_variable *)
Example group_functions_child_group_default_referencing_variable : is_ (at_ [] (ttp_result (fun _ => None) false sort_set ({| w_file := fun p => assoc p []; w_dir := fun p => assoc p []; w_tdir := None; w_exec := fun _ => out_of_model |}) $"" [] $"
<input load=""text"">
interface Lo0
 ip address 1.1.1.1 255.255.255.255
!
interface Lo1
 description this interface has description
</input>

<input load=""text"">
interface Lo10
 ip address 1.1.1.2 255.255.255.255
!
interface Lo11
 description another interface with description
 ip address 1.1.1.3 255.255.255.255
</input>

<vars>
var_name = {
    ""L3"": True,
    ""has_ip"": True
}
</vars>

<group name=""interfaces"">
interface {{ interface }}
 description {{ description | ORPHRASE }}
 <group name=""IPv4_addresses"" default=""var_name"">
 ip address {{ IP }} {{ MASK }}
 </group>
</group>
" [] $"list")) (VList [VList [VDict [(KS $"interfaces", VList [VDict [(KS $"IPv4_addresses", VDict [(KS $"IP", VStr $"1.1.1.1"); (KS $"L3", VBool true); (KS $"MASK", VStr $"255.255.255.255"); (KS $"has_ip", VBool true)]); (KS $"interface", VStr $"Lo0")]; VDict [(KS $"description", VStr $"this interface has description"); (KS $"interface", VStr $"Lo1")]])]; VDict [(KS $"interfaces", VList [VDict [(KS $"IPv4_addresses", VDict [(KS $"IP", VStr $"1.1.1.2"); (KS $"L3", VBool true); (KS $"MASK", VStr $"255.255.255.255"); (KS $"has_ip", VBool true)]); (KS $"interface", VStr $"Lo10")]; VDict [(KS $"IPv4_addresses", VDict [(KS $"IP", VStr $"1.1.1.3"); (KS $"L3", VBool true); (KS $"MASK", VStr $"255.255.255.255"); (KS $"has_ip", VBool true)]); (KS $"description", VStr $"another interface with description"); (KS $"interface", VStr $"Lo11")]])]]]) = true.
Proof. vm_compute. reflexivity. Qed.

(** test/pytest/test_group_functions.py test_itemize *)
Example group_functions_itemize : is_ (at_ [] (ttp_result (fun _ => None) false sort_set ({| w_file := fun p => assoc p []; w_dir := fun p => assoc p []; w_tdir := None; w_exec := fun _ => out_of_model |}) $"" [] $"
<input load=""text"">
interface Vlan778
 description some description 1
 ip address 2002:fd37::91/124
!
interface Vlan779
 description some description 2
!
interface Vlan780
 switchport port-security mac 4
 ip address 192.168.1.1/124
!
interface Vlan790
 description some description 790
 switchport port-security mac 4
 ip address 192.168.190.1/124
!
</input>

<group name=""interfaces_list**"" functions=""contains('ip') | itemize(key='interface')"">
interface {{ interface | upper | append(""a"") }}
 ip address {{ ip }}
</group>

<group name=""ips_list"" functions=""contains('description') | itemize(key='ip')"">
interface {{ interface }}
 description {{ description | ORPHRASE }}
 ip address {{ ip }}
 !{{ _end_ }}
</group>

<group name=""bla"" functions=""contains('ip') | itemize(key='interface', path='interfaces.l3')"">
interface {{ interface }}
 description {{ description | ORPHRASE }}
 ip address {{ ip }}
 !{{ _end_ }}
</group>
" [] $"list")) (VList [VList [VDict [(KS $"bla", VList [VDict [(KS $"description", VStr $"some description 1"); (KS $"interface", VStr $"Vlan778"); (KS $"ip", VStr $"2002:fd37::91/124")]; VDict [(KS $"interface", VStr $"Vlan780"); (KS $"ip", VStr $"192.168.1.1/124")]; VDict [(KS $"description", VStr $"some description 790"); (KS $"interface", VStr $"Vlan790"); (KS $"ip", VStr $"192.168.190.1/124")]]); (KS $"interfaces", VDict [(KS $"l3", VList [VStr $"Vlan778"; VStr $"Vlan780"; VStr $"Vlan790"])]); (KS $"interfaces_list", VList [VStr $"VLAN778a"; VStr $"VLAN780a"; VStr $"VLAN790a"]); (KS $"ips_list", VList [VStr $"2002:fd37::91/124"; VStr $"192.168.190.1/124"])]]]) = true.
Proof. vm_compute. reflexivity. Qed.

(** test/pytest/test_group_functions.py test_itemize_dynamic_path_attribute *)
Example group_functions_itemize_dynamic_path_attribute : is_ (at_ [] (ttp_result (fun _ => None) false sort_set ({| w_file := fun p => assoc p []; w_dir := fun p => assoc p []; w_tdir := None; w_exec := fun _ => out_of_model |}) $"" [] $"
<input load=""text"">
interface Loopback0
 ip address 2002:fd37::91/124
!
interface Vlan779
!
interface Loopback1
 switchport port-security mac 4
 ip address 192.168.1.1/124
!
interface Vlan790
 switchport port-security mac 4
 ip address 192.168.190.1/124
!
</input>

<group name=""interfaces"" itemize=""interface, 'l3_interfaces_list.{{ intf_type }}'"">
interface {{ interface | contains(""Vlan"") | let(""intf_type"", ""vlans"") }}
 ip address {{ ip }}
</group>

<group name=""interfaces"" itemize=""interface, 'l3_interfaces_list.{{ intf_type }}'"">
interface {{ interface | contains(""Loop"") | let(""intf_type"", ""loopbacks"") }}
 ip address {{ ip }}
</group>
" [] $"list")) (VList [VList [VDict [(KS $"interfaces", VList [VDict [(KS $"interface", VStr $"Vlan779")]; VDict [(KS $"interface", VStr $"Vlan790"); (KS $"ip", VStr $"192.168.190.1/124")]; VDict [(KS $"interface", VStr $"Loopback0"); (KS $"ip", VStr $"2002:fd37::91/124")]; VDict [(KS $"interface", VStr $"Loopback1"); (KS $"ip", VStr $"192.168.1.1/124")]]); (KS $"l3_interfaces_list", VDict [(KS $"loopbacks", VList [VStr $"Loopback0"; VStr $"Loopback1"]); (KS $"vlans", VList [VStr $"Vlan779"; VStr $"Vlan790"])])]]]) = true.
Proof. vm_compute. reflexivity. Qed.

(** test/pytest/test_group_functions.py test_expand *)
Example group_functions_expand : is_ (at_ [] (ttp_result (fun _ => None) false sort_set ({| w_file := fun p => assoc p []; w_dir := fun p => assoc p []; w_tdir := None; w_exec := fun _ => out_of_model |}) $"" [] $"
<input load=""text"">
interface GigabitEthernet1/1
   description to core-1
   mtu 9100
   switchport mode trunk
!
</input>

<group name=""interfaces.interface*"" expand="""" >
interface {{ name }}
   description {{ config.description | ORPHRASE }}
   mtu {{ config.mtu | to_int }}
   <group name=""switched-vlan"">
   switchport mode {{ mode }}
   </group>
! {{_end_}}
</group>
    " [] $"list")) (VList [VList [VDict [(KS $"interfaces", VDict [(KS $"interface", VList [VDict [(KS $"config", VDict [(KS $"description", VStr $"to core-1"); (KS $"mtu", VInt (9100))]); (KS $"name", VStr $"GigabitEthernet1/1"); (KS $"switched-vlan", VDict [(KS $"mode", VStr $"trunk")])]])])]]]) = true.
Proof. vm_compute. reflexivity. Qed.

(** test/pytest/test_group_functions.py test_group_to_int_with_intlist_true_issue_109 *)
Example group_functions_group_to_int_with_intlist_true_issue_109 : is_ (at_ [] (ttp_result (fun _ => None) false sort_set ({| w_file := fun p => assoc p []; w_dir := fun p => assoc p []; w_tdir := None; w_exec := fun _ => out_of_model |}) $"" [] $"
<input load=""text"">
interface GigabitEthernet1/1
   switchport trunk allowed vlan 1,2,3,4
!
interface GigabitEthernet1/2
   switchport trunk allowed vlan 123
!    
interface GigabitEthernet1/3
   switchport trunk allowed vlan foo,bar
!    
interface GigabitEthernet1/4
! 
</input>

<group to_int=""trunk_vlan, intlist=True"">
interface {{ name }}
   switchport trunk allowed vlan {{ trunk_vlan | split(',') }}
</group>
    " [] $"list")) (VList [VList [VList [VDict [(KS $"name", VStr $"GigabitEthernet1/1"); (KS $"trunk_vlan", VList [VInt (1); VInt (2); VInt (3); VInt (4)])]; VDict [(KS $"name", VStr $"GigabitEthernet1/2"); (KS $"trunk_vlan", VList [VInt (123)])]; VDict [(KS $"name", VStr $"GigabitEthernet1/3"); (KS $"trunk_vlan", VList [VStr $"foo"; VStr $"bar"])]; VDict [(KS $"name", VStr $"GigabitEthernet1/4")]]]]) = true.
Proof. vm_compute. reflexivity. Qed.

(** test/pytest/test_group_functions.py test_group_to_int_with_intlist_with_not_all_integers *)
Example group_functions_group_to_int_with_intlist_with_not_all_integers : is_ (at_ [] (ttp_result (fun _ => None) false sort_set ({| w_file := fun p => assoc p []; w_dir := fun p => assoc p []; w_tdir := None; w_exec := fun _ => out_of_model |}) $"" [] $"
<input load=""text"">
interface GigabitEthernet1/1
   switchport trunk allowed vlan 1,foo,3,4
!
</input>

<group to_int=""trunk_vlan, intlist=True"">
interface {{ name }}
   switchport trunk allowed vlan {{ trunk_vlan | split(',') }}
</group>
    " [] $"list")) (VList [VList [VList [VDict [(KS $"name", VStr $"GigabitEthernet1/1"); (KS $"trunk_vlan", VList [VInt (1); VStr $"foo"; VInt (3); VInt (4)])]]]]) = true.
Proof. vm_compute. reflexivity. Qed.

(** test/pytest/test_group_name_attribute.py test_group_same_null_path_for_several_groups *)
Example group_name_attribute_group_same_null_path_for_several_groups : is_ (at_ [] (ttp_result (fun _ => None) false sort_set ({| w_file := fun p => assoc p []; w_dir := fun p => assoc p []; w_tdir := None; w_exec := fun _ => out_of_model |}) $"" [] $"
<group name=""vrfs"">
vrf {{name}}
  <group name=""_"">
  import route-target {{ _start_ }}
   {{ import | to_list | joinmatches }}
  </group>
  !
  <group name=""_"">
  export route-target {{ _start_ }}
   {{ export | to_list | joinmatches }}
  </group>
</group>
    " [(VStr $"
vrf xyz
 address-family ipv4 unicast
  import route-target
   65000:3507
   65000:3511
   65000:5453
   65000:5535
  !
  export route-target
   65000:5453
   65000:5535
  !
 !
!    
    ", $"_all_")] $"list")) (VList [VList [VDict [(KS $"vrfs", VDict [(KS $"export", VList [VStr $"65000:5453"; VStr $"65000:5535"]); (KS $"import", VList [VStr $"65000:3507"; VStr $"65000:3511"; VStr $"65000:5453"; VStr $"65000:5535"]); (KS $"name", VStr $"xyz")])]]]) = true.
Proof. vm_compute. reflexivity. Qed.

(** test/pytest/test_headers_indicator.py test_headers_indicator_space_indented_header *)
Example headers_indicator_headers_indicator_space_indented_header : is_ (at_ [] (ttp_result (fun _ => None) false sort_set ({| w_file := fun p => assoc p []; w_dir := fun p => assoc p []; w_tdir := None; w_exec := fun _ => out_of_model |}) $"" [] $"
<input load=""text"">
   Network            Next Hop            Metric     LocPrf     Weight Path
*>e11.11.1.111/32     12.123.12.1              0                     0 65000 ?
*>e222.222.222.2/32   12.123.12.1              0                     0 65000 ?
*>e333.33.333.333/32  12.123.12.1              0                     0 65000 ?
</input>

<group>
   Network            Next_Hop            Metric     LocPrf     Weight Path  {{ _headers_ }}
</group>   
" [] $"list")) (VList [VList [VList [VDict [(KS $"LocPrf", VStr $""); (KS $"Metric", VStr $"0"); (KS $"Network", VStr $"*>e11.11.1.111/32"); (KS $"Next_Hop", VStr $"12.123.12.1"); (KS $"Path", VStr $"65000 ?"); (KS $"Weight", VStr $"0")]; VDict [(KS $"LocPrf", VStr $""); (KS $"Metric", VStr $"0"); (KS $"Network", VStr $"*>e222.222.222.2/32"); (KS $"Next_Hop", VStr $"12.123.12.1"); (KS $"Path", VStr $"65000 ?"); (KS $"Weight", VStr $"0")]; VDict [(KS $"LocPrf", VStr $""); (KS $"Metric", VStr $"0"); (KS $"Network", VStr $"*>e333.33.333.333/32"); (KS $"Next_Hop", VStr $"12.123.12.1"); (KS $"Path", VStr $"65000 ?"); (KS $"Weight", VStr $"0")]]]]) = true.
Proof. vm_compute. reflexivity. Qed.

(** test/pytest/test_headers_indicator.py test_headers_indicator_tab_indented_header *)
Example headers_indicator_headers_indicator_tab_indented_header : is_ (at_ [] (ttp_result (fun _ => None) false sort_set ({| w_file := fun p => assoc p []; w_dir := fun p => assoc p []; w_tdir := None; w_exec := fun _ => out_of_model |}) $"" [] $"
<input load=""text"">
    Network               Next Hop            Metric     LocPrf     Weight Path
*>ef11.11.1.111/32     12.123.12.1              0                     0 65000 ?
*>ef222.222.222.2/32   12.123.12.1              0                     0 65000 ?
*>ef333.333.333.333/32 12.123.12.1              0                     0 65000 ?
</input>

<group>
    Network            Next_Hop            Metric     LocPrf     Weight Path  {{ _headers_ }}
</group>   
" [] $"list")) (VList [VList [VList [VDict [(KS $"LocPrf", VStr $""); (KS $"Metric", VStr $"0"); (KS $"Network", VStr $"*>ef11.11.1.111/32"); (KS $"Next_Hop", VStr $"12.123.12.1"); (KS $"Path", VStr $"65000 ?"); (KS $"Weight", VStr $"0")]; VDict [(KS $"LocPrf", VStr $""); (KS $"Metric", VStr $"0"); (KS $"Network", VStr $"*>ef222.222.222.2/32"); (KS $"Next_Hop", VStr $"12.123.12.1"); (KS $"Path", VStr $"65000 ?"); (KS $"Weight", VStr $"0")]; VDict [(KS $"LocPrf", VStr $""); (KS $"Metric", VStr $"0"); (KS $"Network", VStr $"*>ef333.333.333.333/32"); (KS $"Next_Hop", VStr $"12.123.12.1"); (KS $"Path", VStr $"65000 ?"); (KS $"Weight", VStr $"0")]]]]) = true.
Proof. vm_compute. reflexivity. Qed.

(** test/pytest/test_headers_indicator.py test_headers_shorter_lines *)
Example headers_indicator_headers_shorter_lines : is_ (at_ [] (ttp_result (fun _ => None) false sort_set ({| w_file := fun p => assoc p []; w_dir := fun p => assoc p []; w_tdir := None; w_exec := fun _ => out_of_model |}) $"" [] $"
Filesystem              K1_blocks Used    Available Use_ Mounted_on {{ _headers_ }}
" [(VStr $"
Filesystem              1K-blocks    Used Available Use% Mounted on
tmpfs                     1457328       0   1457328   0% /sys/fs/cgroup
/dev/mapper/centos-root  14034944 5783384   8251560  42% /
/dev/sda1                 1038336  220604    817732  22% /boot
    ", $"_root_template_")] $"list")) (VList [VList [VList [VDict [(KS $"Available", VStr $"1457328"); (KS $"Filesystem", VStr $"tmpfs"); (KS $"K1_blocks", VStr $"1457328"); (KS $"Mounted_on", VStr $"/sys/fs/cgroup"); (KS $"Use_", VStr $"0%"); (KS $"Used", VStr $"0")]; VDict [(KS $"Available", VStr $"8251560"); (KS $"Filesystem", VStr $"/dev/mapper/centos-root"); (KS $"K1_blocks", VStr $"14034944"); (KS $"Mounted_on", VStr $"/"); (KS $"Use_", VStr $"42%"); (KS $"Used", VStr $"5783384")]; VDict [(KS $"Available", VStr $"817732"); (KS $"Filesystem", VStr $"/dev/sda1"); (KS $"K1_blocks", VStr $"1038336"); (KS $"Mounted_on", VStr $"/boot"); (KS $"Use_", VStr $"22%"); (KS $"Used", VStr $"220604")]]]]) = true.
Proof. vm_compute. reflexivity. Qed.

(** test/pytest/test_headers_indicator.py test_with_garbage *)
Example headers_indicator_with_garbage : is_ (at_ [] (ttp_result (fun _ => None) false sort_set ({| w_file := fun p => assoc p []; w_dir := fun p => assoc p []; w_tdir := None; w_exec := fun _ => out_of_model |}) $"" [] $"
<input load=""text"">
interface Lo0
 ip address 124.171.238.50/29
!
interface Lo1
 ip address 1.1.1.1/30
!
Port      Name               Status       Vlan       Duplex  Speed Type
Gi0/1     PIT-VDU213         connected    18         a-full  a-100 10/100/1000BaseTX
Gi0/4                        connected    18         a-full  a-100 10/100/1000BaseTX
Gi0/16    pitrs2201 te1/1/4  connected    trunk        full   1000  1000BaseLX SFP
</input>

<group>
Port      Name               Status       Vlan       Duplex  Speed Type   {{ _headers_ }}
</group>   
    " [] $"list")) (VList [VList [VList [VDict [(KS $"Duplex", VStr $"a-full"); (KS $"Name", VStr $"PIT-VDU213"); (KS $"Port", VStr $"Gi0/1"); (KS $"Speed", VStr $"a-100"); (KS $"Status", VStr $"connected"); (KS $"Type", VStr $"10/100/1000BaseTX"); (KS $"Vlan", VStr $"18")]; VDict [(KS $"Duplex", VStr $"a-full"); (KS $"Name", VStr $""); (KS $"Port", VStr $"Gi0/4"); (KS $"Speed", VStr $"a-100"); (KS $"Status", VStr $"connected"); (KS $"Type", VStr $"10/100/1000BaseTX"); (KS $"Vlan", VStr $"18")]; VDict [(KS $"Duplex", VStr $"full"); (KS $"Name", VStr $"pitrs2201 te1/1/4"); (KS $"Port", VStr $"Gi0/16"); (KS $"Speed", VStr $"1000"); (KS $"Status", VStr $"connected"); (KS $"Type", VStr $"1000BaseLX SFP"); (KS $"Vlan", VStr $"trunk")]]]]) = true.
Proof. vm_compute. reflexivity. Qed.

(** test/pytest/test_headers_indicator.py test_headers_on_tabular_output *)
Example headers_indicator_headers_on_tabular_output : is_ (at_ [] (ttp_result (fun _ => None) false sort_set ({| w_file := fun p => assoc p []; w_dir := fun p => assoc p []; w_tdir := None; w_exec := fun _ => out_of_model |}) $"" [] $"
Partition_Name   L3V  Index  Max__Aflex  Admin_Count {{ _headers_ }}
    " [(VStr $"

Partition Name   L3V  Index  Max. Aflex  Admin Count
----------------------------------------------------
sivr_icm         No   1      32          0
ent_mgmt         No   2      32          0
Cloud            No   3  *   32          0
lync             No   4      32          0
sap              No   5      32          0
config_mgmts     No   6      32          0
Uprising         No   7      32          0
ERC_MGMT         No   8      32          0
sc_sw_ctrl       No   9      32          0
cust_hub         No   10     32          0
A10-CIS          No   11     32          0
SAP_Dev_Admin    No   12 *   32          0
sentry_ext       No   13     32          0
web_ecom_srvs    No   14     32          0
dir_sec_svc      No   15     32          0
eng_ops          No   16     32          0
mw_mgmt          No   17     32          0
oracle_db_adm    No   18     32          0
idm_mgmt         No   19     32          0
info_mgmt        No   20 *   32          0
sa_ops_natapps   No   21     32          0
eng_supt         No   37 *   32          0
retail_apps      No   128    32          0    
    ", $"_all_")] $"list")) (VList [VList [VList [VDict [(KS $"Admin_Count", VStr $"-----------"); (KS $"Index", VStr $"-------"); (KS $"L3V", VStr $"-----"); (KS $"Max__Aflex", VStr $"------------"); (KS $"Partition_Name", VStr $"-----------------")]; VDict [(KS $"Admin_Count", VStr $"0"); (KS $"Index", VStr $"1"); (KS $"L3V", VStr $"No"); (KS $"Max__Aflex", VStr $"32"); (KS $"Partition_Name", VStr $"sivr_icm")]; VDict [(KS $"Admin_Count", VStr $"0"); (KS $"Index", VStr $"2"); (KS $"L3V", VStr $"No"); (KS $"Max__Aflex", VStr $"32"); (KS $"Partition_Name", VStr $"ent_mgmt")]; VDict [(KS $"Admin_Count", VStr $"0"); (KS $"Index", VStr $"3  *"); (KS $"L3V", VStr $"No"); (KS $"Max__Aflex", VStr $"32"); (KS $"Partition_Name", VStr $"Cloud")]; VDict [(KS $"Admin_Count", VStr $"0"); (KS $"Index", VStr $"4"); (KS $"L3V", VStr $"No"); (KS $"Max__Aflex", VStr $"32"); (KS $"Partition_Name", VStr $"lync")]; VDict [(KS $"Admin_Count", VStr $"0"); (KS $"Index", VStr $"5"); (KS $"L3V", VStr $"No"); (KS $"Max__Aflex", VStr $"32"); (KS $"Partition_Name", VStr $"sap")]; VDict [(KS $"Admin_Count", VStr $"0"); (KS $"Index", VStr $"6"); (KS $"L3V", VStr $"No"); (KS $"Max__Aflex", VStr $"32"); (KS $"Partition_Name", VStr $"config_mgmts")]; VDict [(KS $"Admin_Count", VStr $"0"); (KS $"Index", VStr $"7"); (KS $"L3V", VStr $"No"); (KS $"Max__Aflex", VStr $"32"); (KS $"Partition_Name", VStr $"Uprising")]; VDict [(KS $"Admin_Count", VStr $"0"); (KS $"Index", VStr $"8"); (KS $"L3V", VStr $"No"); (KS $"Max__Aflex", VStr $"32"); (KS $"Partition_Name", VStr $"ERC_MGMT")]; VDict [(KS $"Admin_Count", VStr $"0"); (KS $"Index", VStr $"9"); (KS $"L3V", VStr $"No"); (KS $"Max__Aflex", VStr $"32"); (KS $"Partition_Name", VStr $"sc_sw_ctrl")]; VDict [(KS $"Admin_Count", VStr $"0"); (KS $"Index", VStr $"10"); (KS $"L3V", VStr $"No"); (KS $"Max__Aflex", VStr $"32"); (KS $"Partition_Name", VStr $"cust_hub")]; VDict [(KS $"Admin_Count", VStr $"0"); (KS $"Index", VStr $"11"); (KS $"L3V", VStr $"No"); (KS $"Max__Aflex", VStr $"32"); (KS $"Partition_Name", VStr $"A10-CIS")]; VDict [(KS $"Admin_Count", VStr $"0"); (KS $"Index", VStr $"12 *"); (KS $"L3V", VStr $"No"); (KS $"Max__Aflex", VStr $"32"); (KS $"Partition_Name", VStr $"SAP_Dev_Admin")]; VDict [(KS $"Admin_Count", VStr $"0"); (KS $"Index", VStr $"13"); (KS $"L3V", VStr $"No"); (KS $"Max__Aflex", VStr $"32"); (KS $"Partition_Name", VStr $"sentry_ext")]; VDict [(KS $"Admin_Count", VStr $"0"); (KS $"Index", VStr $"14"); (KS $"L3V", VStr $"No"); (KS $"Max__Aflex", VStr $"32"); (KS $"Partition_Name", VStr $"web_ecom_srvs")]; VDict [(KS $"Admin_Count", VStr $"0"); (KS $"Index", VStr $"15"); (KS $"L3V", VStr $"No"); (KS $"Max__Aflex", VStr $"32"); (KS $"Partition_Name", VStr $"dir_sec_svc")]; VDict [(KS $"Admin_Count", VStr $"0"); (KS $"Index", VStr $"16"); (KS $"L3V", VStr $"No"); (KS $"Max__Aflex", VStr $"32"); (KS $"Partition_Name", VStr $"eng_ops")]; VDict [(KS $"Admin_Count", VStr $"0"); (KS $"Index", VStr $"17"); (KS $"L3V", VStr $"No"); (KS $"Max__Aflex", VStr $"32"); (KS $"Partition_Name", VStr $"mw_mgmt")]; VDict [(KS $"Admin_Count", VStr $"0"); (KS $"Index", VStr $"18"); (KS $"L3V", VStr $"No"); (KS $"Max__Aflex", VStr $"32"); (KS $"Partition_Name", VStr $"oracle_db_adm")]; VDict [(KS $"Admin_Count", VStr $"0"); (KS $"Index", VStr $"19"); (KS $"L3V", VStr $"No"); (KS $"Max__Aflex", VStr $"32"); (KS $"Partition_Name", VStr $"idm_mgmt")]; VDict [(KS $"Admin_Count", VStr $"0"); (KS $"Index", VStr $"20 *"); (KS $"L3V", VStr $"No"); (KS $"Max__Aflex", VStr $"32"); (KS $"Partition_Name", VStr $"info_mgmt")]; VDict [(KS $"Admin_Count", VStr $"0"); (KS $"Index", VStr $"21"); (KS $"L3V", VStr $"No"); (KS $"Max__Aflex", VStr $"32"); (KS $"Partition_Name", VStr $"sa_ops_natapps")]; VDict [(KS $"Admin_Count", VStr $"0"); (KS $"Index", VStr $"37 *"); (KS $"L3V", VStr $"No"); (KS $"Max__Aflex", VStr $"32"); (KS $"Partition_Name", VStr $"eng_supt")]; VDict [(KS $"Admin_Count", VStr $"0"); (KS $"Index", VStr $"128"); (KS $"L3V", VStr $"No"); (KS $"Max__Aflex", VStr $"32"); (KS $"Partition_Name", VStr $"retail_apps")]]]]) = true.
Proof. vm_compute. reflexivity. Qed.

(** test/pytest/test_inputs.py test_input_to_groups_mapping *)
Example inputs_input_to_groups_mapping : is_ (at_ [] (ttp_result (fun _ => None) false sort_set ({| w_file := fun p => assoc p []; w_dir := fun p => assoc p []; w_tdir := None; w_exec := fun _ => out_of_model |}) $"" [] $"
<input name=""sys_host"" load=""text"">
 Static hostname: localhost.localdomain
         Chassis: vm
      Machine ID: 2a26648f68764152a772fc20c9a3ddb3
Operating System: CentOS Linux 7 (Core)
</input>
    
<group name=""system"">
 Static hostname: {{ hostname }}
         Chassis: {{ chassis }}
      Machine ID: {{ machine_id }}
Operating System: {{ os | ORPHRASE }}
</group>
    " [] $"list")) (VList [VList [VDict [(KS $"system", VDict [(KS $"chassis", VStr $"vm"); (KS $"hostname", VStr $"localhost.localdomain"); (KS $"machine_id", VStr $"2a26648f68764152a772fc20c9a3ddb3"); (KS $"os", VStr $"CentOS Linux 7 (Core)")])]]]) = true.
Proof. vm_compute. reflexivity. Qed.

(** test/pytest/test_match_condition_fun.py test_contains_re_inline *)
Example match_condition_fun_contains_re_inline : is_ (at_ [] (ttp_result (fun _ => None) false sort_set ({| w_file := fun p => assoc p []; w_dir := fun p => assoc p []; w_tdir := None; w_exec := fun _ => out_of_model |}) $"" [] $"
<input load=""text"">
interface Port-Channel11
  description Storage Management
interface Loopback0
  description RID
interface Vlan777
  description Management
</input>

<group>
interface {{ interface | contains_re(""Port-Channel"") }}
  description {{ description }}
  {{ is_lag | set(True) }}
  {{ is_loopback| set(False) }}
</group>
    " [] $"list")) (VList [VList [VList [VDict [(KS $"interface", VStr $"Port-Channel11"); (KS $"is_lag", VBool true); (KS $"is_loopback", VBool false)]]]]) = true.
Proof. vm_compute. reflexivity. Qed.

(** test/pytest/test_match_condition_fun.py test_startswith_re_inline *)
Example match_condition_fun_startswith_re_inline : is_ (at_ [] (ttp_result (fun _ => None) false sort_set ({| w_file := fun p => assoc p []; w_dir := fun p => assoc p []; w_tdir := None; w_exec := fun _ => out_of_model |}) $"" [] $"
<input load=""text"">
interface Port-Channel11
  description Storage Management
interface Loopback0
  description RID
interface Vlan777
  description Management
</input>

<group>
interface {{ interface | startswith_re(r""Por\S"") }}
  description {{ description }}
  {{ is_lag | set(True) }}
  {{ is_loopback| set(False) }}
</group>
    " [] $"list")) (VList [VList [VList [VDict [(KS $"interface", VStr $"Port-Channel11"); (KS $"is_lag", VBool true); (KS $"is_loopback", VBool false)]]]]) = true.
Proof. vm_compute. reflexivity. Qed.

(** test/pytest/test_match_condition_fun.py test_endswith_re_inline *)
Example match_condition_fun_endswith_re_inline : is_ (at_ [] (ttp_result (fun _ => None) false sort_set ({| w_file := fun p => assoc p []; w_dir := fun p => assoc p []; w_tdir := None; w_exec := fun _ => out_of_model |}) $"" [] $"
<input load=""text"">
interface Port-Channel11
  description Storage Management
interface Loopback0
  description RID
interface Vlan777
  description Management
</input>

<group>
interface {{ interface | endswith_re(r""Channel\d+"") }}
  description {{ description }}
  {{ is_lag | set(True) }}
  {{ is_loopback| set(False) }}
</group>
    " [] $"list")) (VList [VList [VList [VDict [(KS $"interface", VStr $"Port-Channel11"); (KS $"is_lag", VBool true); (KS $"is_loopback", VBool false)]]]]) = true.
Proof. vm_compute. reflexivity. Qed.

(** test/pytest/test_match_condition_fun.py test_notstartswith_re_inline *)
Example match_condition_fun_notstartswith_re_inline : is_ (at_ [] (ttp_result (fun _ => None) false sort_set ({| w_file := fun p => assoc p []; w_dir := fun p => assoc p []; w_tdir := None; w_exec := fun _ => out_of_model |}) $"" [] $"
<input load=""text"">
interface Port-Channel11
  description Storage Management
interface Loopback0
  description RID
interface Vlan777
  description Management
</input>

<group>
interface {{ interface | notstartswith_re(r""Loop\S+"") }}
  description {{ description }}
  {{ is_lag | set(True) }}
  {{ is_loopback| set(False) }}
</group>
    " [] $"list")) (VList [VList [VList [VDict [(KS $"interface", VStr $"Port-Channel11"); (KS $"is_lag", VBool true); (KS $"is_loopback", VBool false)]; VDict [(KS $"description", VStr $"Management"); (KS $"interface", VStr $"Vlan777"); (KS $"is_lag", VBool true); (KS $"is_loopback", VBool false)]]]]) = true.
Proof. vm_compute. reflexivity. Qed.

(** test/pytest/test_match_condition_fun.py test_notendswith_re_inline *)
Example match_condition_fun_notendswith_re_inline : is_ (at_ [] (ttp_result (fun _ => None) false sort_set ({| w_file := fun p => assoc p []; w_dir := fun p => assoc p []; w_tdir := None; w_exec := fun _ => out_of_model |}) $"" [] $"
<input load=""text"">
interface Port-Channel11
  description Storage Management
interface Loopback0
  description RID
interface Vlan777
  description Management
</input>

<group>
interface {{ interface | notendswith_re(r""back\d+"") }}
  description {{ description }}
  {{ is_lag | set(True) }}
  {{ is_loopback| set(False) }}
</group>
    " [] $"list")) (VList [VList [VList [VDict [(KS $"interface", VStr $"Port-Channel11"); (KS $"is_lag", VBool true); (KS $"is_loopback", VBool false)]; VDict [(KS $"description", VStr $"Management"); (KS $"interface", VStr $"Vlan777"); (KS $"is_lag", VBool true); (KS $"is_loopback", VBool false)]]]]) = true.
Proof. vm_compute. reflexivity. Qed.

(** test/pytest/test_match_condition_fun.py test_exclude_re_from_vars *)
Example match_condition_fun_exclude_re_from_vars : is_ (at_ [] (ttp_result (fun _ => None) false sort_set ({| w_file := fun p => assoc p []; w_dir := fun p => assoc p []; w_tdir := None; w_exec := fun _ => out_of_model |}) $"" [] $"
<input load=""text"">
interface Port-Channel11
  description Storage 
interface Loopback0
  description RID
interface Vlan777
  description Management
</input>

<vars>
var_1 = r""back\d+|lan\d+""
</vars>

<group>
interface {{ interface | exclude_re(var_1) }}
  description {{ description }}
</group>
    " [] $"list")) (VList [VList [VList [VDict [(KS $"description", VStr $"Storage"); (KS $"interface", VStr $"Port-Channel11")]]]]) = true.
Proof. vm_compute. reflexivity. Qed.

(** test/pytest/test_match_condition_fun.py test_exclude_from_vars *)
Example match_condition_fun_exclude_from_vars : is_ (at_ [] (ttp_result (fun _ => None) false sort_set ({| w_file := fun p => assoc p []; w_dir := fun p => assoc p []; w_tdir := None; w_exec := fun _ => out_of_model |}) $"" [] $"
<input load=""text"">
interface Port-Channel11
  description Storage Management
interface Loopback0
  description RID
interface Vlan777
  description Management
</input>

<vars>
var_1 = ""Loop""
</vars>

<group>
interface {{ interface | exclude(var_1) }}
  description {{ description }}
</group>
    " [] $"list")) (VList [VList [VList [VDict [(KS $"interface", VStr $"Port-Channel11")]; VDict [(KS $"description", VStr $"Management"); (KS $"interface", VStr $"Vlan777")]]]]) = true.
Proof. vm_compute. reflexivity. Qed.

(** test/pytest/test_match_condition_fun.py test_contains_from_vars *)
Example match_condition_fun_contains_from_vars : is_ (at_ [] (ttp_result (fun _ => None) false sort_set ({| w_file := fun p => assoc p []; w_dir := fun p => assoc p []; w_tdir := None; w_exec := fun _ => out_of_model |}) $"" [] $"
<input load=""text"">
interface Port-Channel11
  description Storage
interface Loopback0
  description RID
interface Port-Channel12
  description Management
interface Vlan777
  description Management
</input>

<vars>
var_1 = ""Port""
</vars>

<group>
interface {{ interface | contains(var_1) }}
  description {{ description }}
</group>
    " [] $"list")) (VList [VList [VList [VDict [(KS $"description", VStr $"Storage"); (KS $"interface", VStr $"Port-Channel11")]; VDict [(KS $"description", VStr $"Management"); (KS $"interface", VStr $"Port-Channel12")]]]]) = true.
Proof. vm_compute. reflexivity. Qed.

(** test/pytest/test_match_condition_fun.py test_equal_inline *)
Example match_condition_fun_equal_inline : is_ (at_ [] (ttp_result (fun _ => None) false sort_set ({| w_file := fun p => assoc p []; w_dir := fun p => assoc p []; w_tdir := None; w_exec := fun _ => out_of_model |}) $"" [] $"
<input load=""text"">
interface Port-Channel11
  description Storage
interface Loopback0
  description RID
interface Port-Channel12
  description Management
interface Vlan777
  description Management
</input>

<group>
interface {{ interface | equal(""Port-Channel12"") }}
  description {{ description }}
</group>
    " [] $"list")) (VList [VList [VList [VDict [(KS $"description", VStr $"Management"); (KS $"interface", VStr $"Port-Channel12")]]]]) = true.
Proof. vm_compute. reflexivity. Qed.

(** test/pytest/test_match_condition_fun.py test_notequal_inline *)
Example match_condition_fun_notequal_inline : is_ (at_ [] (ttp_result (fun _ => None) false sort_set ({| w_file := fun p => assoc p []; w_dir := fun p => assoc p []; w_tdir := None; w_exec := fun _ => out_of_model |}) $"" [] $"
<input load=""text"">
interface Port-Channel11
  description Storage
interface Loopback0
  description RID
interface Port-Channel12
  description Management
interface Vlan777
  description Management
</input>

<group>
interface {{ interface | notequal(""Port-Channel12"") }}
  description {{ description }}
</group>
    " [] $"list")) (VList [VList [VList [VDict [(KS $"description", VStr $"Storage"); (KS $"interface", VStr $"Port-Channel11")]; VDict [(KS $"description", VStr $"RID"); (KS $"interface", VStr $"Loopback0")]; VDict [(KS $"description", VStr $"Management"); (KS $"interface", VStr $"Vlan777")]]]]) = true.
Proof. vm_compute. reflexivity. Qed.

(** test/pytest/test_match_functions.py test_sformat_inline *)
Example match_functions_sformat_inline : is_ (at_ [] (ttp_result (fun _ => None) false sort_set ({| w_file := fun p => assoc p []; w_dir := fun p => assoc p []; w_tdir := None; w_exec := fun _ => out_of_model |}) $"" [] $"
<input load=""text"">
interface Port-Channel11
  description Storage
interface Loopback0
  description RID
interface Port-Channel12
  description Management
interface Vlan777
  description Management
</input>

<group>
interface {{ interface | sformat(""BSQ {}"") }}
  description {{ description }}
</group>
    " [] $"list")) (VList [VList [VList [VDict [(KS $"description", VStr $"Storage"); (KS $"interface", VStr $"BSQ Port-Channel11")]; VDict [(KS $"description", VStr $"RID"); (KS $"interface", VStr $"BSQ Loopback0")]; VDict [(KS $"description", VStr $"Management"); (KS $"interface", VStr $"BSQ Port-Channel12")]; VDict [(KS $"description", VStr $"Management"); (KS $"interface", VStr $"BSQ Vlan777")]]]]) = true.
Proof. vm_compute. reflexivity. Qed.

(** test/pytest/test_match_functions.py test_to_list_with_joinmatches *)
Example match_functions_to_list_with_joinmatches : is_ (at_ [] (ttp_result (fun _ => None) false sort_set ({| w_file := fun p => assoc p []; w_dir := fun p => assoc p []; w_tdir := None; w_exec := fun _ => out_of_model |}) $"" [] $"
<input load=""text"">
interface GigabitEthernet3/3
 switchport trunk allowed vlan add 138,166,173 
 switchport trunk allowed vlan add 400,401,410
</input>
 
<group>
interface {{ interface }}
 switchport trunk allowed vlan add {{ trunk_vlans | to_list | joinmatches }}
</group>
    " [] $"list")) (VList [VList [VList [VDict [(KS $"interface", VStr $"GigabitEthernet3/3"); (KS $"trunk_vlans", VList [VStr $"138,166,173"; VStr $"400,401,410"])]]]]) = true.
Proof. vm_compute. reflexivity. Qed.

(** test/pytest/test_match_functions.py test_joinmatches_with_ignore *)
Example match_functions_joinmatches_with_ignore : is_ (at_ [] (ttp_result (fun _ => None) false sort_set ({| w_file := fun p => assoc p []; w_dir := fun p => assoc p []; w_tdir := None; w_exec := fun _ => out_of_model |}) $"" [] $"
<vars>
hostname=""gethostname""
</vars>

<group name=""vlans*"">
Status and Counters - VLAN Information - for ports {{ Port_Number }}
{{ Tagged_VLAN | joinmatches("" "") }} {{ ignore }} | {{ ignore }} {{ ignore }} {{ ignore }} Tagged
{{ Untagged_VLAN }}                  {{ ignore }} | {{ ignore }} {{ ignore }} {{ ignore }} Untagged
{{ Hostname | set(hostname) }}
</group>   
    " [(VStr $"
SWITCH# show vlan port 2/11 detail

Status and Counters - VLAN Information - for ports 2/11

Port name:

VLAN ID Name | Status Voice Jumbo Mode

------- -------------------- + ---------- ----- ----- --------

60 ABC | Port-based No No Tagged

70 DEF | Port-based No No Tagged

101 GHIJ | Port-based No No Untagged

105 KLMNO | Port-based No No Tagged

116 PQRS | Port-based No No Tagged

117 TVU | Port-based No No Tagged

SWITCH# show vlan port 2/12 detail

Status and Counters - VLAN Information - for ports 2/12

Port name:

VLAN ID Name | Status Voice Jumbo Mode

------- -------------------- + ---------- ----- ----- --------

61 ABC | Port-based No No Tagged

71 DEF | Port-based No No Tagged

103 GHI | Port-based No No Untagged
    ", $"_all_")] $"list")) (VList [VList [VDict [(KS $"vlans", VList [VDict [(KS $"Hostname", VStr $"SWITCH"); (KS $"Port_Number", VStr $"2/11"); (KS $"Tagged_VLAN", VStr $"60 70 105 116 117"); (KS $"Untagged_VLAN", VStr $"101")]; VDict [(KS $"Hostname", VStr $"SWITCH"); (KS $"Port_Number", VStr $"2/12"); (KS $"Tagged_VLAN", VStr $"61 71"); (KS $"Untagged_VLAN", VStr $"103")]])]]]) = true.
Proof. vm_compute. reflexivity. Qed.

(** test/pytest/test_match_functions.py test_match_variable_default_set_to_string *)
Example match_functions_match_variable_default_set_to_string : is_ (at_ [] (ttp_result (fun _ => None) false sort_set ({| w_file := fun p => assoc p []; w_dir := fun p => assoc p []; w_tdir := None; w_exec := fun _ => out_of_model |}) $"" [] $"
<input load=""text"">
interface Port-Channel11
  ip address 1.1.1.1/24
interface Loopback0
</input>

<group>
interface {{ interface }}
  ip address {{ ip | default(""Undefined"") }}
</group>
    " [] $"list")) (VList [VList [VList [VDict [(KS $"interface", VStr $"Port-Channel11"); (KS $"ip", VStr $"1.1.1.1/24")]; VDict [(KS $"interface", VStr $"Loopback0"); (KS $"ip", VStr $"Undefined")]]]]) = true.
Proof. vm_compute. reflexivity. Qed.

(** test/pytest/test_match_functions.py test_match_variable_default_set_to_dictionary *)
Example match_functions_match_variable_default_set_to_dictionary : is_ (at_ [] (ttp_result (fun _ => None) false sort_set ({| w_file := fun p => assoc p []; w_dir := fun p => assoc p []; w_tdir := None; w_exec := fun _ => out_of_model |}) $"" [] $"
<input load=""text"">
interface Port-Channel11
  ip address 1.1.1.1/24
interface Loopback0
</input>

<group>
interface {{ interface }}
  ip address {{ ip | default({""defined"": False}) }}
</group>
    " [] $"list")) (VList [VList [VList [VDict [(KS $"interface", VStr $"Port-Channel11"); (KS $"ip", VStr $"1.1.1.1/24")]; VDict [(KS $"interface", VStr $"Loopback0"); (KS $"ip", VDict [(KS $"defined", VBool false)])]]]]) = true.
Proof. vm_compute. reflexivity. Qed.

(** test/pytest/test_match_functions.py test_let_and_set *)
Example match_functions_let_and_set : is_ (at_ [] (ttp_result (fun _ => None) false sort_set ({| w_file := fun p => assoc p []; w_dir := fun p => assoc p []; w_tdir := None; w_exec := fun _ => out_of_model |}) $"" [] $"
interface {{ name }}
 description {{ description | re("".+"") }}
 shutdown {{ enabled | set(False) | let(""admin-status"", ""down"") }}
 {{ link-up-down-trap-enable | set(enabled) }}
 {{ admin-status | set(up) }}
    " [(VStr $"
interface Port-Channel11
 ip address 1.1.1.1/24
 description bla bla bla
 shutdown
interface Port-Channel22
 ip address 1.1.2.1/24
 description bla bla2 bla2
    ", $"_all_")] $"list")) (VList [VList [VList [VDict [(KS $"admin-status", VStr $"down"); (KS $"description", VStr $"bla bla bla"); (KS $"enabled", VBool false); (KS $"link-up-down-trap-enable", VStr $"enabled"); (KS $"name", VStr $"Port-Channel11")]; VDict [(KS $"admin-status", VStr $"up"); (KS $"description", VStr $"bla bla2 bla2"); (KS $"link-up-down-trap-enable", VStr $"enabled"); (KS $"name", VStr $"Port-Channel22")]]]]) = true.
Proof. vm_compute. reflexivity. Qed.

(** test/pytest/test_match_functions.py test_copy *)
Example match_functions_copy : is_ (at_ [] (ttp_result (fun _ => None) false sort_set ({| w_file := fun p => assoc p []; w_dir := fun p => assoc p []; w_tdir := None; w_exec := fun _ => out_of_model |}) $"" [] $"
interface {{ name }}
 ip address {{ ip_last_octet | copy(""ip_address"") | split(""."") | item(-1) }} {{ mask }}
    " [(VStr $"
interface Port-Channel11
 ip address 1.1.1.123 255.255.255.255
interface Port-Channel22
 ip address 1.1.1.124 255.255.255.255
    ", $"_all_")] $"list")) (VList [VList [VList [VDict [(KS $"ip_address", VStr $"1.1.1.123"); (KS $"ip_last_octet", VStr $"123"); (KS $"mask", VStr $"255.255.255.255"); (KS $"name", VStr $"Port-Channel11")]; VDict [(KS $"ip_address", VStr $"1.1.1.124"); (KS $"ip_last_octet", VStr $"124"); (KS $"mask", VStr $"255.255.255.255"); (KS $"name", VStr $"Port-Channel22")]]]]) = true.
Proof. vm_compute. reflexivity. Qed.

(** test/pytest/test_misc.py test_match_vars_with_dot *)
Example misc_match_vars_with_dot : is_ (at_ [] (ttp_result (fun _ => None) false sort_set ({| w_file := fun p => assoc p []; w_dir := fun p => assoc p []; w_tdir := None; w_exec := fun _ => out_of_model |}) $"" [] $"
<input load=""text"">
interface Port-Channel11
  description Storage
interface Loopback0
  description RID
interface Port-Channel12
  description Management
interface Vlan777
  description Management
</input>

<group>
interface {{ interface.name }}
  description {{ description.bla }}
</group>
    " [] $"list")) (VList [VList [VList [VDict [(KS $"description.bla", VStr $"Storage"); (KS $"interface.name", VStr $"Port-Channel11")]; VDict [(KS $"description.bla", VStr $"RID"); (KS $"interface.name", VStr $"Loopback0")]; VDict [(KS $"description.bla", VStr $"Management"); (KS $"interface.name", VStr $"Port-Channel12")]; VDict [(KS $"description.bla", VStr $"Management"); (KS $"interface.name", VStr $"Vlan777")]]]]) = true.
Proof. vm_compute. reflexivity. Qed.

(** test/pytest/test_misc.py test_match_vars_multiple_non_alpha_chars *)
Example misc_match_vars_multiple_non_alpha_chars : is_ (at_ [] (ttp_result (fun _ => None) false sort_set ({| w_file := fun p => assoc p []; w_dir := fun p => assoc p []; w_tdir := None; w_exec := fun _ => out_of_model |}) $"" [] $"
<input load=""text"">
interface Port-Channel11
  description Storage
interface Loopback0
  description RID
interface Port-Channel12
  description Management
interface Vlan777
  description Management
</input>

<group>
interface {{ 77interface.#$%name }}
  description {{ 77description.*(-bla }}
</group>
    " [] $"list")) (VList [VList [VList [VDict [(KS $"77description.*(-bla", VStr $"Storage"); (KS $"77interface.#$%name", VStr $"Port-Channel11")]; VDict [(KS $"77description.*(-bla", VStr $"RID"); (KS $"77interface.#$%name", VStr $"Loopback0")]; VDict [(KS $"77description.*(-bla", VStr $"Management"); (KS $"77interface.#$%name", VStr $"Port-Channel12")]; VDict [(KS $"77description.*(-bla", VStr $"Management"); (KS $"77interface.#$%name", VStr $"Vlan777")]]]]) = true.
Proof. vm_compute. reflexivity. Qed.

(** test/pytest/test_misc.py test_per_template_mode *)
Example misc_per_template_mode : is_ (at_ [] (ttp_result (fun _ => None) false sort_set ({| w_file := fun p => assoc p []; w_dir := fun p => assoc p []; w_tdir := None; w_exec := fun _ => out_of_model |}) $"" [] $"
<template name=""top_key_name"" results=""per_template"">
<group name=""interfaces*"">
interface {{ interface }}
  description {{ description }}
</group>
</template>
    " [(VStr $"
interface Port-Chanel11
  description Storage Management
interface Loopback0
  description RID
interface Vlan777
  description Management
    ", $"top_key_name"); (VStr $"
interface Port-Chane10
  description Storage Management
interface Loopback77
  description RID
interface Vlan321
  description Management    
    ", $"top_key_name")] $"dictionary")) (VDict [(KS $"top_key_name", VDict [(KS $"interfaces", VList [VDict [(KS $"interface", VStr $"Port-Chanel11")]; VDict [(KS $"description", VStr $"RID"); (KS $"interface", VStr $"Loopback0")]; VDict [(KS $"description", VStr $"Management"); (KS $"interface", VStr $"Vlan777")]; VDict [(KS $"interface", VStr $"Port-Chane10")]; VDict [(KS $"description", VStr $"RID"); (KS $"interface", VStr $"Loopback77")]; VDict [(KS $"description", VStr $"Management"); (KS $"interface", VStr $"Vlan321")]])])]) = true.
Proof. vm_compute. reflexivity. Qed.

(** test/pytest/test_misc.py test_hierarch_template *)
Example misc_hierarch_template : is_ (at_ [] (ttp_result (fun _ => None) false sort_set ({| w_file := fun p => assoc p []; w_dir := fun p => assoc p []; w_tdir := None; w_exec := fun _ => out_of_model |}) $"" [] $"
<vars>
hostname='gethostname' 
</vars>

<group name=""{{ hostname }}.bgp_config.AS_{{ loca_as }}"">
router bgp {{ bgp_as | record(""loca_as"") }}
  router-id {{ rid }}
  <group name=""vrfs*.{{ VRF }}"">
  vrf {{ VRF }}
    {{ hostname | set(""hostname"") }}
    {{ local_as | set(""loca_as"") }}
    <group name=""afi**"">
      <group name=""Unicast**.{{ AFI }}"">
    address-family {{ AFI }} unicast
      network {{ network | joinmatches() }}
      redistribute direct route-map {{ redistr_direct_rpl }}
      </group>
    </group>
    <group name=""peers**.{{ PEER }}"">    
    neighbor {{ PEER }}
      remote-as {{ remote_as }}
      description {{ description }}
      <group name=""afi**.{{ AFI }}"">
       <group name=""Unicast**"">
      address-family {{ AFI }} unicast
        shutdown {{ shutdown | set(""True"") }}
        allowas-in {{ allow_as_in | set(""True"") }}
        route-map {{ rpl_in }} in
        route-map {{ rpl_out }} out
       </group>
      </group>
    </group>
  </group>
</group>
    " [(VStr $"
sw1# show run | sec bgp
router bgp 65000
  router-id 10.1.2.2
  vrf cust1
    address-family ipv4 unicast
      network 1.1.1.10/26
      redistribute direct route-map VRF-DIRECT->BGP-V4
    neighbor 1.1.1.1
      remote-as 65001
      description FIREWALLs
      no dynamic-capability
      address-family ipv4 unicast
        allowas-in
        route-map 65001-BGP-IMPORT-V4 in
        route-map 65001-BGP-EXPORT-V4 out
    neighbor 2.2.2.2
      remote-as 65002
      description SLB Front
      address-family ipv4 unicast
        allowas-in
        route-map SLB-BGP-IMPORT-V4 in
        route-map SLB-BGP-EXPORT-V4 out
    neighbor 3.3.3.3
      remote-as 1234
      description Internet BDR
      address-family ipv4 unicast
        route-map INTERNET-IMPORT-V4 in
        route-map INTERNET-EXPORT-V4 out
  vrf cust2
    address-family ipv4 unicast
      redistribute direct route-map  VRF-DIRECT->BGP-V4
    neighbor 4.4.4.4
      remote-as 4567
      description SLB Back
      address-family ipv4 unicast
        allowas-in
        route-map SLBB-BGP-IMPORT-V4 in
        route-map SLBB-BGP-EXPORT-V4 out
  vrf cust3
    router-id 10.227.146.9
    address-family ipv4 unicast
      redistribute direct route-map C3-DIRECT->BGP-V4
    neighbor 5.5.5.5
      remote-as 65100
      description cist2 core
      no dynamic-capability
      address-family ipv4 unicast
        route-map C3-BGP-IMPORT-V4 in
        route-map C3-BGP-EXPORT-V4 out
    neighbor 6.6.6.6
      remote-as 65200
      description C3: Firewalls
      address-family ipv4 unicast
        allowas-in 1
        route-map C3-FW-BGP-IMPORT-V4 in
        route-map C3-FW-BGP-EXPORT-V4 out    
    ", $"_all_")] $"list")) (VList [VList [VDict [(KS $"sw1", VDict [(KS $"bgp_config", VDict [(KS $"AS_65000", VDict [(KS $"bgp_as", VStr $"65000"); (KS $"rid", VStr $"10.1.2.2"); (KS $"vrfs", VList [VDict [(KS $"cust1", VDict [(KS $"afi", VDict [(KS $"Unicast", VDict [(KS $"ipv4", VDict [(KS $"network", VStr $"1.1.1.10/26"); (KS $"redistr_direct_rpl", VStr $"VRF-DIRECT->BGP-V4")])])]); (KS $"local_as", VStr $"65000"); (KS $"peers", VDict [(KS $"1.1.1.1", VDict [(KS $"afi", VDict [(KS $"ipv4", VDict [(KS $"Unicast", VDict [(KS $"allow_as_in", VStr $"True"); (KS $"rpl_in", VStr $"65001-BGP-IMPORT-V4"); (KS $"rpl_out", VStr $"65001-BGP-EXPORT-V4")])])]); (KS $"description", VStr $"FIREWALLs"); (KS $"remote_as", VStr $"65001")]); (KS $"2.2.2.2", VDict [(KS $"afi", VDict [(KS $"ipv4", VDict [(KS $"Unicast", VDict [(KS $"allow_as_in", VStr $"True"); (KS $"rpl_in", VStr $"SLB-BGP-IMPORT-V4"); (KS $"rpl_out", VStr $"SLB-BGP-EXPORT-V4")])])]); (KS $"remote_as", VStr $"65002")]); (KS $"3.3.3.3", VDict [(KS $"afi", VDict [(KS $"ipv4", VDict [(KS $"Unicast", VDict [(KS $"rpl_in", VStr $"INTERNET-IMPORT-V4"); (KS $"rpl_out", VStr $"INTERNET-EXPORT-V4")])])]); (KS $"remote_as", VStr $"1234")])])]); (KS $"cust2", VDict [(KS $"afi", VDict [(KS $"Unicast", VDict [(KS $"ipv4", VDict [(KS $"redistr_direct_rpl", VStr $"VRF-DIRECT->BGP-V4")])])]); (KS $"local_as", VStr $"65000"); (KS $"peers", VDict [(KS $"4.4.4.4", VDict [(KS $"afi", VDict [(KS $"ipv4", VDict [(KS $"Unicast", VDict [(KS $"allow_as_in", VStr $"True"); (KS $"rpl_in", VStr $"SLBB-BGP-IMPORT-V4"); (KS $"rpl_out", VStr $"SLBB-BGP-EXPORT-V4")])])]); (KS $"remote_as", VStr $"4567")])])]); (KS $"cust3", VDict [(KS $"afi", VDict [(KS $"Unicast", VDict [(KS $"ipv4", VDict [(KS $"redistr_direct_rpl", VStr $"C3-DIRECT->BGP-V4")])])]); (KS $"local_as", VStr $"65000"); (KS $"peers", VDict [(KS $"5.5.5.5", VDict [(KS $"afi", VDict [(KS $"ipv4", VDict [(KS $"Unicast", VDict [(KS $"rpl_in", VStr $"C3-BGP-IMPORT-V4"); (KS $"rpl_out", VStr $"C3-BGP-EXPORT-V4")])])]); (KS $"remote_as", VStr $"65100")]); (KS $"6.6.6.6", VDict [(KS $"afi", VDict [(KS $"ipv4", VDict [(KS $"Unicast", VDict [(KS $"rpl_in", VStr $"C3-FW-BGP-IMPORT-V4"); (KS $"rpl_out", VStr $"C3-FW-BGP-EXPORT-V4")])])]); (KS $"remote_as", VStr $"65200")])])])]])])])])]]]) = true.
Proof. vm_compute. reflexivity. Qed.

(** test/pytest/test_misc.py test_group_end_indicator_when_last_start_is_bigger_than_last_end *)
Example misc_group_end_indicator_when_last_start_is_bigger_than_last_end : is_ (at_ [] (ttp_result (fun _ => None) false sort_set ({| w_file := fun p => assoc p []; w_dir := fun p => assoc p []; w_tdir := None; w_exec := fun _ => out_of_model |}) $"" [] $"
<group name=""ospf_processes.{{ pid }}**"">
            OSPF Router with ID ({{ local_rid }}) (Process ID {{ pid }})
            
<group name=""router_lsa*"" functions=""record('area') | del('area') | void"">
                Router Link States (Area {{ area }}) 
                
  <group set=""area"">
  LS Type: Router Links {{ _start_ }}
  Advertising Router: {{ originator_rid }}
  AS Boundary Router {{ asbr | set(True) | default(False) }}
  
    <group name=""ptp_peers*"">
    Link connected to: another Router (point-to-point) {{ _start_ }}
     (Link ID) Neighboring Router ID: {{ link_id }}
     (Link Data) Router Interface address: {{ link_data }}
       TOS 0 Metrics: {{ metric }}
{{ _end_ }}
    </group>

  </group>
</group>
</group>
    " [(VStr $"
IOL4#show ip ospf database router

            OSPF Router with ID (10.0.0.4) (Process ID 1)
            
                Router Link States (Area 100)

  LS Type: Router Links
  Link State ID: 10.0.0.4
  Advertising Router: 10.0.0.4

    Link connected to: another Router (point-to-point)
     (Link ID) Neighboring Router ID: 10.0.5.101
     (Link Data) Router Interface address: 10.1.45.2
      Number of MTID metrics: 0
       TOS 0 Metrics: 10

  LS Type: Router Links
  Link State ID: 10.0.5.101
  Advertising Router: 10.0.5.101

    Link connected to: another Router (point-to-point)
     (Link ID) Neighboring Router ID: 10.0.0.4
     (Link Data) Router Interface address: 10.1.45.3
      Number of MTID metrics: 0
       TOS 0 Metrics: 10", $"_all_")] $"list")) (VList [VList [VDict [(KS $"ospf_processes", VDict [(KS $"1", VDict [(KS $"local_rid", VStr $"10.0.0.4"); (KS $"router_lsa", VList [VDict [(KS $"area", VStr $"100"); (KS $"asbr", VBool false); (KS $"originator_rid", VStr $"10.0.0.4"); (KS $"ptp_peers", VList [VDict [(KS $"link_data", VStr $"10.1.45.2"); (KS $"link_id", VStr $"10.0.5.101"); (KS $"metric", VStr $"10")]])]; VDict [(KS $"area", VStr $"100"); (KS $"asbr", VBool false); (KS $"originator_rid", VStr $"10.0.5.101"); (KS $"ptp_peers", VList [VDict [(KS $"link_data", VStr $"10.1.45.3"); (KS $"link_id", VStr $"10.0.0.4"); (KS $"metric", VStr $"10")]])]])])])]]]) = true.
Proof. vm_compute. reflexivity. Qed.

(** test/pytest/test_misc.py test_tabs_and_spaces_mixed_within_line *)
Example misc_tabs_and_spaces_mixed_within_line : is_ (at_ [] (ttp_result (fun _ => None) false sort_set ({| w_file := fun p => assoc p []; w_dir := fun p => assoc p []; w_tdir := None; w_exec := fun _ => out_of_model |}) $"" [] $"
	 Form Factor 		 : {{ form_factor }}
	 Name                : {{ vendor }}
    " [(VStr $"
	 Form Factor 		: QSFP28
	 Name 			: FS
    ", $"_all_")] $"list")) (VList [VList [VDict [(KS $"form_factor", VStr $"QSFP28"); (KS $"vendor", VStr $"FS")]]]) = true.
Proof. vm_compute. reflexivity. Qed.

(** test/pytest/test_misc.py test_asterisk_issue_97 *)
Example misc_asterisk_issue_97 : is_ (at_ [] (ttp_result (fun _ => None) false sort_set ({| w_file := fun p => assoc p []; w_dir := fun p => assoc p []; w_tdir := None; w_exec := fun _ => out_of_model |}) $"" [] $"
<group name=""interfaces.{{ sap }}**"">
interface ""{{ interface | ORPHRASE | _start_ }}"" {{ ignore }}
    sap {{ sap | _exact_ }} {{ ignore }}
exit {{ _end_ }}
</group>
" [(VStr $"
interface ""port lag-4:1629"" create
    sap lag-4:1629.* create
exit
", $"_all_")] $"list")) (VList [VList [VDict [(KS $"interfaces", VDict [(KS $"lag-4:1629.*", VDict [(KS $"interface", VStr $"port lag-4:1629")])])]]]) = true.
Proof. vm_compute. reflexivity. Qed.

(** test/pytest/test_output_formatters.py test_csv_formatter_simple *)
Example output_formatters_csv_formatter_simple : is_ (at_ [] (ttp_result (fun _ => None) false sort_set ({| w_file := fun p => assoc p []; w_dir := fun p => assoc p []; w_tdir := None; w_exec := fun _ => out_of_model |}) $"" [] $"
<input load=""text"">
interface Port-Chanel11
  vlan 10
interface Loopback0
  vlan 20
</input>

<group>
interface {{ interface }}
  vlan {{ vlan | to_int }}
</group>

<output
format=""csv""
/>
" [] $"list")) (VList [VStr $"""interface"",""vlan""
""Port-Chanel11"",""10""
""Loopback0"",""20"""]) = true.
Proof. vm_compute. reflexivity. Qed.

(** test/pytest/test_output_formatters.py test_csv_formatter_with_is_equal *)
Example output_formatters_csv_formatter_with_is_equal : is_ (at_ [] (ttp_result (fun _ => None) false sort_set ({| w_file := fun p => assoc p []; w_dir := fun p => assoc p []; w_tdir := None; w_exec := fun _ => out_of_model |}) $"" [] $"
<input load=""text"" groups=""interfaces2.trunks2"">
interface GigabitEthernet3/3
 switchport trunk allowed vlan add 138,166-173 
 description some description
!
interface GigabitEthernet3/4
 switchport trunk allowed vlan add 100-105
!
interface GigabitEthernet3/5
 switchport trunk allowed vlan add 459,531,704-707
 ip address 1.1.1.1 255.255.255.255
 vrf forwarding ABC_VRF
!
</input>

<!--group with group specific outputs:-->
<group name=""interfaces2.trunks2"" output=""out_csv2, test3-1"">
interface {{ interface }}
 switchport trunk allowed vlan add {{ trunk_vlans }}
 description {{ description | ORPHRASE }}
 vrf forwarding {{ vrf }}
 ip address {{ ip }} {{ mask }}
!{{ _end_ }}
</group>

<out>
name=""out_csv2""
path=""interfaces2.trunks2""
format=""csv""
sep="",""
missing=""undefined""
description=""group specific csv outputter""
</out>

<out 
name=""test3-1""
load=""text""
returner=""self""
functions=""is_equal""
description=""test csv group specific outputter""
>""description"",""interface"",""ip"",""mask"",""trunk_vlans"",""vrf""
""some description"",""GigabitEthernet3/3"",""undefined"",""undefined"",""138,166-173"",""undefined""
""undefined"",""GigabitEthernet3/4"",""undefined"",""undefined"",""100-105"",""undefined""
""undefined"",""GigabitEthernet3/5"",""1.1.1.1"",""255.255.255.255"",""459,531,704-707"",""ABC_VRF""</out>
" [] $"list")) (VList [VList [VList [VDict [(KS $"is_equal", VBool true); (KS $"output_description", VStr $"test csv group specific outputter"); (KS $"output_name", VStr $"test3-1")]]]]) = true.
Proof. vm_compute. reflexivity. Qed.

(** test/pytest/test_output_formatters.py test_table_formatter_with_key *)
Example output_formatters_table_formatter_with_key : is_ (at_ [] (ttp_result (fun _ => None) false sort_set ({| w_file := fun p => assoc p []; w_dir := fun p => assoc p []; w_tdir := None; w_exec := fun _ => out_of_model |}) $"" [] $"
<input load=""text"">
interface Loopback0
 description Router-id-loopback
 ip address 192.168.0.113/24
!
interface Loopback1
 description Router-id-loopback
 ip address 192.168.0.1/24
!
interface Vlan778
 ip address 2002::fd37/124
 ip vrf CPE1
!
interface Vlan779
 ip address 2002::bbcd/124
 ip vrf CPE2
!
</input>
<group name=""interfaces**.{{ interface }}"">
interface {{ interface }}
 ip address {{ ip }}/{{ mask }}
 description {{ description }}
 ip vrf {{ vrf }}
</group>

<output 
path=""interfaces"" 
format=""table"" 
headers=""intf, ip, mask, vrf, description, switchport""
key=""intf""
missing=""Undefined""
/>
    " [] $"list")) (VList [VList [VList [VStr $"intf"; VStr $"ip"; VStr $"mask"; VStr $"vrf"; VStr $"description"; VStr $"switchport"]; VList [VStr $"Loopback0"; VStr $"192.168.0.113"; VStr $"24"; VStr $"Undefined"; VStr $"Router-id-loopback"; VStr $"Undefined"]; VList [VStr $"Loopback1"; VStr $"192.168.0.1"; VStr $"24"; VStr $"Undefined"; VStr $"Router-id-loopback"; VStr $"Undefined"]; VList [VStr $"Vlan778"; VStr $"2002::fd37"; VStr $"124"; VStr $"CPE1"; VStr $"Undefined"; VStr $"Undefined"]; VList [VStr $"Vlan779"; VStr $"2002::bbcd"; VStr $"124"; VStr $"CPE2"; VStr $"Undefined"; VStr $"Undefined"]]]) = true.
Proof. vm_compute. reflexivity. Qed.

(** test/pytest/test_output_functions.py test_output_condition_attribute *)
Example output_functions_output_condition_attribute : is_ (at_ [] (ttp_result (fun _ => None) false sort_set ({| w_file := fun p => assoc p []; w_dir := fun p => assoc p []; w_tdir := None; w_exec := fun _ => out_of_model |}) $"" [(KS $"convert_to_csv", VBool false)] $"
<group>
interface {{ interface }}
 description {{ description }}
 encapsulation dot1q {{ vlan }}
 ip address {{ ip }} {{ mask }}
</group>

<output condition=""convert_to_csv, True"" format=""csv""/>
    " [(VStr $"
interface GigabitEthernet1/3.251
 description Customer #32148
 encapsulation dot1q 251
 ip address 172.16.33.10 255.255.255.128
 shutdown
!
interface GigabitEthernet1/4
 description vCPEs access control
 ip address 172.16.33.10 255.255.255.128
    ", $"_all_")] $"list")) (VList [VList [VList [VDict [(KS $"interface", VStr $"GigabitEthernet1/3.251"); (KS $"ip", VStr $"172.16.33.10"); (KS $"mask", VStr $"255.255.255.128"); (KS $"vlan", VStr $"251")]; VDict [(KS $"interface", VStr $"GigabitEthernet1/4"); (KS $"ip", VStr $"172.16.33.10"); (KS $"mask", VStr $"255.255.255.128")]]]]) = true.
Proof. vm_compute. reflexivity. Qed.

(** test/pytest/test_regexes.py test_pipe_separated_regexes *)
Example regexes_pipe_separated_regexes : is_ (at_ [] (ttp_result (fun _ => None) false sort_set ({| w_file := fun p => assoc p []; w_dir := fun p => assoc p []; w_tdir := None; w_exec := fun _ => out_of_model |}) $"" [] $"
<input load=""text"">
Protocol  Address     Age (min)  Hardware Addr   Type   Interface
Internet  10.12.13.1        98   0950.5785.5cd1  ARPA   FastEthernet2.13
Internet  10.12.13.2        98   0950.5785.5cd2  ARPA   Loopback0
Internet  10.12.13.3       131   0150.7685.14d5  ARPA   GigabitEthernet2.13
Internet  10.12.13.4       198   0950.5C8A.5c41  ARPA   GigabitEthernet2.17
</input>

<vars>
INTF_RE = r""GigabitEthernet\S+|Fast\S+""
</vars>

<group name=""arp_test"">
Internet  {{ ip | re(""IP"")}}  {{ age | re(r""\d+"") }}   {{ mac }}  ARPA   {{ interface | re(""INTF_RE"") }}
</group>
" [] $"list")) (VList [VList [VDict [(KS $"arp_test", VList [VDict [(KS $"age", VStr $"98"); (KS $"interface", VStr $"FastEthernet2.13"); (KS $"ip", VStr $"10.12.13.1"); (KS $"mac", VStr $"0950.5785.5cd1")]; VDict [(KS $"age", VStr $"131"); (KS $"interface", VStr $"GigabitEthernet2.13"); (KS $"ip", VStr $"10.12.13.3"); (KS $"mac", VStr $"0150.7685.14d5")]; VDict [(KS $"age", VStr $"198"); (KS $"interface", VStr $"GigabitEthernet2.17"); (KS $"ip", VStr $"10.12.13.4"); (KS $"mac", VStr $"0950.5C8A.5c41")]])]]]) = true.
Proof. vm_compute. reflexivity. Qed.

(** test/pytest/test_regexes.py test_MAC_regex_formatter *)
Example regexes_MAC_regex_formatter : is_ (at_ [] (ttp_result (fun _ => None) false sort_set ({| w_file := fun p => assoc p []; w_dir := fun p => assoc p []; w_tdir := None; w_exec := fun _ => out_of_model |}) $"" [] $"
<input load=""text"">
Protocol  Address     Age (min)  Hardware Addr      Type   Interface
Internet  10.12.13.2        98   0950:5785:5cd2     ARPA   Loopback0
Internet  10.12.13.3       131   0150.7685.14d5     ARPA   GigabitEthernet2.13
Internet  10.12.13.1        98   0950-5785-5cd1     ARPA   FastEthernet2.13
Internet  10.12.13.4       198   09:50:5C:8A:5c:41  ARPA   GigabitEthernet2.17
Internet  10.12.13.5       198   09.50.5C.8A.5c.41  ARPA   GigabitEthernet2.17
Internet  10.12.13.6       198   09-50-5C-8A-5c-41  ARPA   GigabitEthernet2.17
Internet  10.12.13.6       198   09505C8A5c41       ARPA   GigabitEthernet2.will_not_match
Internet  10.12.13.6       198   09505C8:A5c41      ARPA   GigabitEthernet2.will_not_match
Internet  10.12.13.6       198   09505C.8.A5c41      ARPA   GigabitEthernet2.will_not_match
</input>

<group name=""arp_test"">
Internet  {{ ip }}  {{ age }}   {{ mac | MAC }}  ARPA   {{ interface }}
</group>
" [] $"list")) (VList [VList [VDict [(KS $"arp_test", VList [VDict [(KS $"age", VStr $"98"); (KS $"interface", VStr $"Loopback0"); (KS $"ip", VStr $"10.12.13.2"); (KS $"mac", VStr $"0950:5785:5cd2")]; VDict [(KS $"age", VStr $"131"); (KS $"interface", VStr $"GigabitEthernet2.13"); (KS $"ip", VStr $"10.12.13.3"); (KS $"mac", VStr $"0150.7685.14d5")]; VDict [(KS $"age", VStr $"98"); (KS $"interface", VStr $"FastEthernet2.13"); (KS $"ip", VStr $"10.12.13.1"); (KS $"mac", VStr $"0950-5785-5cd1")]; VDict [(KS $"age", VStr $"198"); (KS $"interface", VStr $"GigabitEthernet2.17"); (KS $"ip", VStr $"10.12.13.4"); (KS $"mac", VStr $"09:50:5C:8A:5c:41")]; VDict [(KS $"age", VStr $"198"); (KS $"interface", VStr $"GigabitEthernet2.17"); (KS $"ip", VStr $"10.12.13.5"); (KS $"mac", VStr $"09.50.5C.8A.5c.41")]; VDict [(KS $"age", VStr $"198"); (KS $"interface", VStr $"GigabitEthernet2.17"); (KS $"ip", VStr $"10.12.13.6"); (KS $"mac", VStr $"09-50-5C-8A-5c-41")]])]]]) = true.
Proof. vm_compute. reflexivity. Qed.

(** test/pytest/test_structure.py test_list_structure_with_outputter *)
Example structure_list_structure_with_outputter : is_ (at_ [] (ttp_result_with (fun _ => None) false sort_set ({| w_file := fun p => assoc p []; w_dir := fun p => assoc p []; w_tdir := None; w_exec := fun _ => out_of_model |}) $"" [] $"
<input load=""text"">
interface Lo0
 ip address 192.168.0.1 32
!
interface Lo1
 ip address 1.1.1.1 32
</input>

<input load=""text"">
interface Lo2
 ip address 2.2.2.2 32
!
interface Lo3
 ip address 3.3.3.3 32
</input>

<group>
interface {{ interface }}
 ip address {{ ip }} {{ mask }}
</group>
" [] [(KS $"returner", VStr $"self")] $"list")) (VList [VList [VList [VDict [(KS $"interface", VStr $"Lo0"); (KS $"ip", VStr $"192.168.0.1"); (KS $"mask", VStr $"32")]; VDict [(KS $"interface", VStr $"Lo1"); (KS $"ip", VStr $"1.1.1.1"); (KS $"mask", VStr $"32")]]; VList [VDict [(KS $"interface", VStr $"Lo2"); (KS $"ip", VStr $"2.2.2.2"); (KS $"mask", VStr $"32")]; VDict [(KS $"interface", VStr $"Lo3"); (KS $"ip", VStr $"3.3.3.3"); (KS $"mask", VStr $"32")]]]]) = true.
Proof. vm_compute. reflexivity. Qed.

(** test/pytest/test_structure.py test_dictionary_structure_with_outputter *)
Example structure_dictionary_structure_with_outputter : is_ (at_ [] (ttp_result_with (fun _ => None) false sort_set ({| w_file := fun p => assoc p []; w_dir := fun p => assoc p []; w_tdir := None; w_exec := fun _ => out_of_model |}) $"" [] $"
<template>

<template name=""first"">
<input load=""text"">
interface Lo0
 ip address 124.171.238.50 32
!
interface Lo1
 ip address 1.1.1.1 32
</input>

<group>
interface {{ interface }}
 ip address {{ ip }} {{ mask }}
</group>

</template>

<template name=""second"">
<input load=""text"">
interface Lo2
 ip address 124.171.238.50 32
!
interface Lo3
 ip address 2.2.2.2 32
</input>

<group>
interface {{ interface }}
 ip address {{ ip }} {{ mask }}
</group>
</template>
</template>
" [] [(KS $"returner", VStr $"self")] $"dictionary")) (VDict [(KS $"first", VList [VList [VDict [(KS $"interface", VStr $"Lo0"); (KS $"ip", VStr $"124.171.238.50"); (KS $"mask", VStr $"32")]; VDict [(KS $"interface", VStr $"Lo1"); (KS $"ip", VStr $"1.1.1.1"); (KS $"mask", VStr $"32")]]]); (KS $"second", VList [VList [VDict [(KS $"interface", VStr $"Lo2"); (KS $"ip", VStr $"124.171.238.50"); (KS $"mask", VStr $"32")]; VDict [(KS $"interface", VStr $"Lo3"); (KS $"ip", VStr $"2.2.2.2"); (KS $"mask", VStr $"32")]]])]) = true.
Proof. vm_compute. reflexivity. Qed.

(** test/pytest/test_structure.py test_flat_list_structure_with_outputter *)
Example structure_flat_list_structure_with_outputter : is_ (at_ [] (ttp_result_with (fun _ => None) false sort_set ({| w_file := fun p => assoc p []; w_dir := fun p => assoc p []; w_tdir := None; w_exec := fun _ => out_of_model |}) $"" [] $"
<input load=""text"">
interface Lo0
 ip address 192.168.0.1 32
!
interface Lo1
 ip address 1.1.1.1 32
</input>

<input load=""text"">
interface Lo2
 ip address 2.2.2.2 32
!
interface Lo3
 ip address 3.3.3.3 32
</input>

<group>
interface {{ interface }}
 ip address {{ ip }} {{ mask }}
</group>
" [] [(KS $"returner", VStr $"self")] $"flat_list")) (VList [VDict [(KS $"interface", VStr $"Lo0"); (KS $"ip", VStr $"192.168.0.1"); (KS $"mask", VStr $"32")]; VDict [(KS $"interface", VStr $"Lo1"); (KS $"ip", VStr $"1.1.1.1"); (KS $"mask", VStr $"32")]; VDict [(KS $"interface", VStr $"Lo2"); (KS $"ip", VStr $"2.2.2.2"); (KS $"mask", VStr $"32")]; VDict [(KS $"interface", VStr $"Lo3"); (KS $"ip", VStr $"3.3.3.3"); (KS $"mask", VStr $"32")]]) = true.
Proof. vm_compute. reflexivity. Qed.
