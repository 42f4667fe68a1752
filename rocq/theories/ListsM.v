(** The catalogue of filter lists of /repo/lists: for every list its UUID and
    its URL.  (Titles, languages, support addresses, component ids and keys are
    not modelled.) *)
From Verif Require Import Base.

(** lists/default.h:23-65 *)
Definition default_lists : list (bytes * bytes) :=
  [ (B "67F880F5-7602-4042-8A3D-01481FD7437A",
     B "https://easylist.to/easylist/easylist.txt");
    (B "48010209-AD34-4DF5-A80C-3D2A7C3920C0",
     B "https://easylist.to/easylist/easyprivacy.txt");
    (B "200392E7-9A0F-40DF-86EB-6AF7E4071322",
     B "https://raw.githubusercontent.com/uBlockOrigin/uAssets/master/filters/unbreak.txt");
    (B "2FBEB0BC-E2E1-4170-BAA9-05E76AAB5BA5",
     B "https://raw.githubusercontent.com/brave/adblock-lists/master/brave-unbreak.txt");
    (B "BCDF774A-7845-4121-B7EB-77EB66CEDF84",
     B "https://raw.githubusercontent.com/brave/adblock-lists/master/coin-miners.txt") ].

(** lists/regions.h:12-333 *)
Definition region_lists : list (bytes * bytes) :=
  [ (B "9FCEECEC-52B4-4487-8E57-8781E82C91D0",
     B "https://easylist-downloads.adblockplus.org/Liste_AR.txt");
    (B "FD176DD1-F9A0-4469-B43E-B1764893DD5C",
     B "https://stanev.org/abp/adblock_bg.txt");
    (B "11F62B02-9D1F-4263-A7F8-77D2B55D4594",
     B "https://easylist-downloads.adblockplus.org/easylistchina.txt");
    (B "CC98E4BA-9257-4386-A1BC-1BBF6980324F",
     B "https://raw.githubusercontent.com/cjx82630/cjxlist/master/cjx-annoyance.txt");
    (B "92AA0D3B-34AC-4657-9A5C-DBAD339AF8E2",
     B "https://raw.githubusercontent.com/cjx82630/cjxlist/master/cjxlist.txt");
    (B "7CCB6921-7FDA-4A9B-B70A-12DD0A8F08EA",
     B "https://raw.githubusercontent.com/tomasko126/easylistczechandslovak/master/filters.txt");
    (B "E71426E7-E898-401C-A195-177945415F38",
     B "https://easylist-downloads.adblockplus.org/easylistgermany.txt");
    (B "9EF6A21C-5014-4199-95A2-A82491274203",
     B "https://adblock.dk/block.csv");
    (B "0783DBFD-B5E0-4982-9B4A-711BDDB925B7",
     B "https://adblock.ee/list.php");
    (B "5E5C9C94-0516-45F2-9AFB-800F0EC74FCA",
     B "https://raw.githubusercontent.com/liamja/Prebake/master/obtrusive.txt");
    (B "1C6D8556-3400-4358-B9AD-72689D7B2C46",
     B "https://raw.githubusercontent.com/finnish-easylist-addition/finnish-easylist-addition/master/Finland_adb.txt");
    (B "9852EFC4-99E4-4F2D-A915-9C3196C7A1DE",
     B "https://easylist-downloads.adblockplus.org/liste_fr.txt");
    (B "6C0F4C7F-969B-48A0-897A-14583015A587",
     B "https://www.void.gr/kargig/void-gr-filters.txt");
    (B "EDEEE15A-6FA9-4FAC-8CA8-3565508EAAC3",
     B "https://raw.githubusercontent.com/szpeter80/hufilter/master/hufilter.txt");
    (B "93123971-5AE6-47BA-93EA-BE1E4682E2B6",
     B "https://raw.githubusercontent.com/heradhis/indonesianadblockrules/master/subscriptions/abpindo.txt");
    (B "4C07DB6B-6377-4347-836D-68702CF1494A",
     B "https://secure.fanboy.co.nz/fanboy-indian.txt");
    (B "C3C2F394-D7BB-4BC2-9793-E0F13B2B5971",
     B "https://raw.githubusercontent.com/farrokhi/adblock-iran/master/filter.txt");
    (B "48796273-E783-431E-B864-44D3DCEA66DC",
     B "https://adblock.gardar.net/is.abp.txt");
    (B "85F65E06-D7DA-4144-B6A5-E1AA965D1E47",
     B "https://raw.githubusercontent.com/easylist/EasyListHebrew/master/EasyListHebrew.txt");
    (B "A0E9F361-A01F-4C0E-A52D-2977A1AD4BFB",
     B "https://raw.githubusercontent.com/gioxx/xfiles/master/filtri.txt");
    (B "AB1A661D-E946-4F29-B47F-CA3885F6A9F7",
     B "https://easylist-downloads.adblockplus.org/easylistitaly.txt");
    (B "03F91310-9244-40FA-BCF6-DA31B832F34D",
     B "https://raw.githubusercontent.com/k2jp/abp-japanese-filters/master/abpjf.txt");
    (B "51260D6E-28F8-4EEC-B76D-3046DADC27C9",
     B "https://www.fanboy.co.nz/fanboy-korean.txt");
    (B "1E6CF01B-AFC4-47D2-AE59-3E32A1ED094F",
     B "https://raw.githubusercontent.com/gfmaster/adblock-korea-contrib/master/filter.txt");
    (B "45B3ED40-C607-454F-A623-195FDD084637",
     B "https://raw.githubusercontent.com/yous/YousList/master/youslist.txt");
    (B "4E8B1A63-DEBE-4B8B-AD78-3811C632B353",
     B "https://raw.githubusercontent.com/EasyList-Lithuania/easylist_lithuania/master/easylistlithuania.txt");
    (B "15B64333-BAF9-4B77-ADC8-935433CD6F4C",
     B "https://notabug.org/latvian-list/adblock-latvian/raw/master/lists/latvian-list.txt");
    (B "9D644676-4784-4982-B94D-C9AB19098D2A",
     B "https://easylist-downloads.adblockplus.org/easylistdutch.txt");
    (B "BF9234EB-4CB7-4CED-9FCB-F1FD31B0666C",
     B "https://www.certyficate.it/adblock/adblock.txt");
    (B "AD3E8454-F376-11E8-8EB2-F2801F1B9FD1",
     B "https://raw.githubusercontent.com/tcptomato/ROad-Block/master/road-block-filters-light.txt");
    (B "1088D292-2369-4D40-9BDF-C7DC03C05966",
     B "https://adguard.com/en/filter-rules.html?id=1");
    (B "DABC6490-70E5-46DD-8BE2-358FB9A37C85",
     B "https://easylist-downloads.adblockplus.org/bitblock.txt");
    (B "80470EEC-970F-4F2C-BF6B-4810520C72E6",
     B "https://easylist-downloads.adblockplus.org/advblock.txt");
    (B "AE657374-1851-4DC4-892B-9212B13B15A7",
     B "https://easylist-downloads.adblockplus.org/easylistspanish.txt");
    (B "1FEAF960-F377-11E8-8EB2-F2801F1B9FD1",
     B "https://filters.adtidy.org/extension/ublock/filters/9.txt");
    (B "418D293D-72A8-4A28-8718-A1EE40A45AAF",
     B "https://raw.githubusercontent.com/betterwebleon/slovenian-list/master/filters.txt");
    (B "7DC2AC80-5BBC-49B8-B473-A31A1145CAC1",
     B "https://raw.githubusercontent.com/lassekongo83/Frellwits-filter-lists/master/Frellwits-Swedish-Filter.txt");
    (B "658F092A-F377-11E8-8EB2-F2801F1B9FD1",
     B "https://raw.githubusercontent.com/easylist-thailand/easylist-thailand/master/subscription/easylist-thailand.txt");
    (B "1BE19EFD-9191-4560-878E-30ECA72B5B3C",
     B "https://adguard.com/filter-rules.html?id=13");
    (B "6A0209AC-9869-4FD6-A9DF-039B4200D52C",
     B "https://www.fanboy.co.nz/fanboy-vietnam.txt") ].

(** lists/malware.h:12-13: empty. *)
Definition malware_lists : list (bytes * bytes) := [].
