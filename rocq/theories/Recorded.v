(** * Recorded: transactions of the first election recorded in the repository (test_elections/test_election_1/test_election_1.json), the first of
    every type, without the white space.  Nothing is modelled here. *)
From Verif Require Import Base.
From Coq Require Strings.String.
Import String.StringSyntax.
Open Scope list_scope.

(** the single quote stands for the double quote *)
Definition q (s : bytes) : bytes := map (fun b => if Byte.eqb b x27 then x22 else b) s.
Definition rec_election : bytes := q (String.list_byte_of_string "{'type':'election','tx':{'id':'e5714e3f8ef4ff14687e42b12084030100000000000000000000000000000000','authority_public':'45284c2879c1820803f198c2e04c2497634aea2d0202105eff3619636108ea54','trustees':[{'public_key':'ee03252f98ead241bd41eab7b7b2c30ba331a0295fcc185e46658159e466f2dc','index':1},{'public_key':'e52fa39ae3c5c53c23a9f8e75b0ca1c3bc83958404e197d69ff5500418f3d39a','index':2},{'public_key':'d4627aaa0e027b8b6278f46cd00809e317a8bc577fc1fce8d861158a8fea7b5d','index':3}],'trustees_threshold':2,'authenticators':[{'id':'9b2267d2-dfc3-4dc9-950d-abd8810e3b6d','public_keys':{'TEST':'a2616e881ae1678feb1a18c592081a17d0808c1adf376bec1a15cfdb861a3b5ff28e1a7595fc561ae4a873886165811a00010001'}}],'authenticators_threshold':1,'mix_config':{'timeout_secs':600,'batch_size':null},'ballots':[{'id':'TEST','contests':[0]}],'contests':[{'index':0,'contest_type':'plurality','num_winners':1,'write_in':true,'candidates':[]}],'properties':{}},'sig':'a1b0d6983bfb373993f401d9879bc884ccd29158e58768089d214b67c3c7debe9debf299c4dfe2564f9049c535eebab8731d7da2bbed78c704325e5271149d0a'}").
Definition rec_key_gen_commitment : bytes := q (String.list_byte_of_string "{'type':'key_gen_commitment','tx':{'id':'e5714e3f8ef4ff14687e42b12084030201000000000000000000000000000000','election':'e5714e3f8ef4ff14687e42b12084030100000000000000000000000000000000','trustee_index':1,'trustee_public_key':'ee03252f98ead241bd41eab7b7b2c30ba331a0295fcc185e46658159e466f2dc','x25519_public_key':'eb98c14883ef2b234a70cd0f9be05a49ea2fef53807784de745d0a18318f6063','commitment':{'elems':['Hg8oAemLclHMk7lwyYBPydr6e8YsbkqPNr/w0fHJYH4=','/GusNmucAWWF3u56dH0L4Ezvw1AgEB8NJgFdqeYtkAk=']}},'sig':'4ab981c4a39ab10580986a93b4e1fff084a9e760a49b80d8aa677b3880f9901bb4c1ea6e6922b911e5d1511e9e76282fb14b387f332156ff614a82ce7dea2a02'}").
Definition rec_key_gen_share : bytes := q (String.list_byte_of_string "{'type':'key_gen_share','tx':{'id':'e5714e3f8ef4ff14687e42b12084030301000000000000000000000000000000','election':'e5714e3f8ef4ff14687e42b12084030100000000000000000000000000000000','trustee_index':1,'trustee_public_key':'ee03252f98ead241bd41eab7b7b2c30ba331a0295fcc185e46658159e466f2dc','shares':[[1,'76a04053bda0a88bda5177b8e8f98b981a1aed4b378949646c0777268e4000925f91c155fba4a9157ea00996391fe2b431bd36049fc2737d3fc03dbc'],[2,'6a15c3b29f559873cb4812322a075bb82c1548bf26f3c65267e21c2bb8169100a3bd7fa74920d7cf5996f57e5c7e61d649317e92cdf7ac524a548dae'],[3,'299cd5743151ac4b2d63ae199bbf03e5bf536a7621c082a90c1329fe5d16f1a5dd1357bcc3c61a716b7a0634b0f65f8875dc12d78e48c7ce15d8a1a6']]},'sig':'6a2237bd6bd413eec06c73efdcaf06b53e74f8895062ca66c9cde2a77b8154c99dadda1d2e785f41a86d71e73fde5dfe6ca69a90f19a843e7324062ca2499e0e'}").
Definition rec_key_gen_public_key : bytes := q (String.list_byte_of_string "{'type':'key_gen_public_key','tx':{'id':'e5714e3f8ef4ff14687e42b12084030401000000000000000000000000000000','election':'e5714e3f8ef4ff14687e42b12084030100000000000000000000000000000000','trustee_index':1,'trustee_public_key':'ee03252f98ead241bd41eab7b7b2c30ba331a0295fcc185e46658159e466f2dc','public_key':{'y':'uPBRBTWDXrLEPtjz0IKODLNTAVGXTFqr+4OWRurw0Dk='},'public_key_proof':'smI9HIi8jAC+usmxh1kha0gw0+ORcn488AcbZcA3Qzc='},'sig':'27ac2da728662cc38132921aca5d2f46801bc24e04e1592b2471604fcd5a9b0b5c33a0e91ad4208f280b0b4ade1a76b4ddef7f68906596e518c0aaa40a46d70f'}").
Definition rec_encryption_key : bytes := q (String.list_byte_of_string "{'type':'encryption_key','tx':{'id':'e5714e3f8ef4ff14687e42b12084030500000000000000000000000000000000','election':'e5714e3f8ef4ff14687e42b12084030100000000000000000000000000000000','authority_public_key':'45284c2879c1820803f198c2e04c2497634aea2d0202105eff3619636108ea54','encryption_key':{'y':'uPBRBTWDXrLEPtjz0IKODLNTAVGXTFqr+4OWRurw0Dk='}},'sig':'d5db2186a81c7d5749cd739f88e009dbcf0c66ba7a8e8d8498623ea7ea30551777735b452b3cf310bbb15bc6d4bde490ffb3c25667f30340f760cd674626d104'}").
Definition rec_vote : bytes := q (String.list_byte_of_string "{'type':'vote','tx':{'id':'e5714e3f8ef4ff14687e42b12084030639382d8a1b2480f68ab9ea13e4032448','election':'e5714e3f8ef4ff14687e42b12084030100000000000000000000000000000000','ballot_id':'TEST','encrypted_votes':[{'contest_index':0,'selections':[{'c1':'SIHbhn7RC4PWvNfKWjzrUNEBOE1JF2c7uF61kZU96Tg=','c2':'iFrJG9uBly1a0V313X41KYFOP4sYDvWeZ5e+thunBBk='}]}],'anonymous_key':'39382d8a1b2480f68ab9ea13e403244896a776051b1a79c2c355d0bea160768c','authentication':[{'authenticator':'9b2267d2-dfc3-4dc9-950d-abd8810e3b6d','signature':'7430f4c629781c517d9670d32f0ac1fa8b246db556f4c8f6096e70d18c5973e3'}]},'sig':'1d41ebda57eb067e54bdbcf884b75de0e203ec04f7ba07c10dfa90a0a07211d99618d38a5968a73538602e17000be5400dd7c5055ec12f031c677e41f3e2090b'}").
Definition rec_voting_end : bytes := q (String.list_byte_of_string "{'type':'voting_end','tx':{'id':'e5714e3f8ef4ff14687e42b12084030700000000000000000000000000000000','election':'e5714e3f8ef4ff14687e42b12084030100000000000000000000000000000000','authority_public_key':'45284c2879c1820803f198c2e04c2497634aea2d0202105eff3619636108ea54'},'sig':'3c3890b8a593e332391838c7cf99cc0d17044ed304df01f8ff5c560bc4c3f2d3ee8ed969495fa3990c9e506abaf3c370624545e2f6b620aac64e73ceef7de301'}").
Definition rec_mix : bytes := q (String.list_byte_of_string "{'type':'mix','tx':{'id':'e5714e3f8ef4ff14687e42b12084030800000000000000000001000000000000','election_id':'e5714e3f8ef4ff14687e42b12084030100000000000000000000000000000000','prev_mix_id':null,'trustee_index':1,'trustee_public_key':'ee03252f98ead241bd41eab7b7b2c30ba331a0295fcc185e46658159e466f2dc','mix_index':0,'contest_index':0,'batch':0,'vote_ids':['e5714e3f8ef4ff14687e42b12084030639382d8a1b2480f68ab9ea13e4032448','e5714e3f8ef4ff14687e42b120840306417fdda630f90156827a6448531f997f'],'mixed_ciphertexts':[[{'c1':'Ok6MEVs/bKLYqnST4hNq6+QE7W/dIvG2g6bi4XKGqgc=','c2':'AG+oERfEfdvIMzWVnNXckwjKcEMDqJsbI2qhd0bpDw4='}],[{'c1':'mFYxkt92YOMB+8JN4mtFRIH4YlaY3ml7K9tSs/hPqWk=','c2':'iDPj8nQMOn2LTFjuXntwOZVobVJ2rE21MJ3NxGul6Rw='}]],'proof':{'t_1':'QFICeqnqFAUip1WJ7LE0VLsVNwFIfTfc06H8+Av7QTY=','t_2':'YhNFgtCDAalNN1XZ4rmCOD8GMSZc7s4Am+cSMSZFpiI=','t_3':'Yi2xtGJJ4cEaCIlARUUnuvJUDzQaKbJlE+kp7HGmuzw=','t_4s':[['Lv5HdVnwvABymvPby7aNo8dgkcXhRpTxtGwRTskuh3Q=','Oku76BpK7/8Q0yXX02AruFnOgrjp1vZVrRmAChOHEwA=']],'t_hats':['OnrQnRtj80f9VPJ7BnxbWZg3yPBd8eQq/6Qh0QCyQgU=','1PuWQvw1dEyWhm4YJo1yY5h9JRzGyA++xUYPoWcXzl0='],'s_1':'LWD1idCHpQTFDhGxw8NRrkYj04vgdztStSx0hn8X4Ag=','s_2':'E5PGzPXGtJQ7xuKtD61RBMl5a674LLTBVDWPr81DPQQ=','s_3':'/drpnFc/WLocE69FkCdDyMrbThLaOGr8KNcGHX7OmAI=','s_4s':['gtZih8iNAywlU3zkVPOA7zzuHLg+mxG6hePmgayxhwQ='],'s_hats':['SB27npRcKL1AwJrsMDkw6wSMjey3Td5QqpahBFllCQI=','4//fGC7EYcCBZsBe2RDN4gnYVt1U4FkUqj/ka/gVOAw='],'s_primes':['pC/uSzmUOYp6TvLEAX2wqow9j6K4Fj4uPaHajyZJzwY=','ZkgRn371GgZqqQBtYvJQ4Jxs4r934+3+uD6ZnOGLQwQ='],'commitments':['+ocYiKqabFcBI8YZ/izCTyHo9VCksfo2GtX0AParHWg=','pBcjQ5jLGSElkA98Cv6wLJJmnela5ruYdxjbEurSZks='],'chain':{'commits':['pFdLgfWLx8UiTVDqjP+X7pf+dtO0maT08JZhjNx4ZCg=','QnHL2tIhLlMAy0NpulFvaxRaprQnoLGLyBJXcc1sORs='],'rs':['AV3NkNlzD+6Ta6KRYSu7GRTFSIkgOwqNZgvm1FaPrgo=','fCOwY8O44oUIz2AemTf7ZcLOOiemPOUZNVugKKoqsgs=']}}},'sig':'173e1ac3f52ac6b852c929f21bd3ec7580a1f1cab4f18198aebce5d4fdb693618ac580d45672fbb77a20a520c8471d306b36f9b81d9d4afc644d5bdd33403905'}").
Definition rec_partial_decryption : bytes := q (String.list_byte_of_string "{'type':'partial_decryption','tx':{'id':'e5714e3f8ef4ff14687e42b12084030900000000080000000001020000000001','election_id':'e5714e3f8ef4ff14687e42b12084030100000000000000000000000000000000','upstream_id':'e5714e3f8ef4ff14687e42b12084030800000000000000000102000000000000','upstream_index':0,'contest_index':0,'trustee_index':1,'trustee_public_key':'ee03252f98ead241bd41eab7b7b2c30ba331a0295fcc185e46658159e466f2dc','partial_decryption':[{'share':'/HZeLYBLicTVY6xxN+Z5A4J/1l7lnQCoWw1hDrJtJCg=','proof':{'g':'4vKuCmq8TnGohKlhxQBRX1jjC2qlgt2NtqZZReCNLXY=','ct':{'c1':'EA/faZ79AsFccPgTSRZsXfXxR5jSy79JVAPoJRaPjlY=','c2':'suC9VKJJu6k0OVHdqOfe8AXE02tMxUi+fUVmbYNc2UU='},'public_key':'smI9HIi8jAC+usmxh1kha0gw0+ORcn488AcbZcA3Qzc=','dec_factor':'/HZeLYBLicTVY6xxN+Z5A4J/1l7lnQCoWw1hDrJtJCg=','blinded_g':'nvrN7cEgs1mwbabl37qRVwkbiUrHrzJVZKZKbSNtawk=','blinded_c1':'XHDa9gWVCO+q1p/rL4mzcU7zmmO7XbFjnLu68CMrOmY=','r':'KHY7tP0Gbb+nrd13/jgUwmjdUec/5Zj+wkzyUgFtNQ0='}}]},'sig':'a99c48a6af1ac74df279441207d05d61f8c44f49bc66af7b5b92fb17e82007fb5f716b90b7d413c6ef1a559000895557bbd939ca9d0e350280585f38e6397d0a'}").
Definition rec_decryption : bytes := q (String.list_byte_of_string "{'type':'decryption','tx':{'id':'e5714e3f8ef4ff14687e42b12084030a00000000080000000001020000000000','election_id':'e5714e3f8ef4ff14687e42b12084030100000000000000000000000000000000','upstream_id':'e5714e3f8ef4ff14687e42b12084030800000000000000000102000000000000','upstream_index':0,'contest_index':0,'trustees':[1,2],'decrypted_vote':[{'write_in':false,'rank':0,'selection':'Barak Obama'}]},'sig':'f47c6421c08356f6e4b621798f30f19a0fce5a6f27f142d72fe258dd211d5c6161c9c5b42714803182cf91f49f0754a5517f0e18163c7f3161f759dd08522b09'}").
