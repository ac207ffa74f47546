-Q theories Verif
theories/BaseStr.v
theories/BaseMap.v
theories/M_Types.v
theories/M_Paths.v
theories/S_Paths.v
theories/P_Paths.v
theories/Props_Paths.v
theories/M_Collect.v
theories/S_Collect.v
theories/P_Collect.v
theories/Props_Collect.v
theories/M_Tags.v
theories/S_Tags.v
theories/P_Tags.v
theories/Props_Tags.v
theories/M_OpenAPI.v
theories/S_Names.v
theories/P_Names.v
theories/Props_Names.v
theories/S_OpenAPI.v
theories/P_OpenAPI.v
theories/P_Schema.v
theories/Props_OpenAPI.v
theories/M_TypeTrav.v
theories/S_TypeTrav.v
theories/P_TypeTrav.v
theories/P_Fields.v
theories/Props_TypeTrav.v
theories/M_Parse.v
theories/S_Parse.v
theories/P_Parse.v
theories/P_Parse2.v
theories/P_Parse3.v
theories/P_Parse4.v
theories/Props_Parse.v
theories/M_Value.v
theories/S_Value.v
theories/P_Value.v
theories/Props_Value.v
theories/S_More.v
theories/P_More.v
theories/P_Shape.v
theories/Props_More.v
theories/M_Clean.v
theories/S_Clean.v
theories/P_Clean.v
theories/Props_Clean.v
theories/M_FS.v
theories/M_Service.v
theories/P_FS.v
theories/P_Path.v
theories/P_Act.v
theories/S_Service.v
theories/P_Order.v
theories/S_Example.v
theories/Props_Run.v
theories/S_Cache.v
theories/P_Cache.v
theories/S_Files.v
theories/P_Frame.v
theories/Props_Files.v
theories/P_Load.v
theories/Props_Cache.v
theories/S_Azure.v
theories/P_Azure.v
theories/Props_Azure.v
theories/M_Options.v
theories/S_Options.v
theories/P_Options.v
theories/Props_Options.v
theories/M_Packages.v
theories/S_Packages.v
theories/P_Packages.v
theories/Props_Packages.v
theories/S_Main.v
theories/P_Main.v
theories/Props_Main.v
theories/S_Again.v
theories/P_Again.v
theories/Props_Again.v
theories/S_Mixed.v
theories/P_Mixed.v
theories/P_Stays.v
theories/Props_Mixed.v
theories/P_Chain.v
theories/P_Twice.v
theories/P_Sim.v
theories/S_Twice.v
theories/P_Left.v
theories/P_Block.v
theories/P_Cli.v
theories/Props_Twice.v
theories/P_Mono.v
theories/S_Custom.v
theories/S_Whole.v
theories/P_Temp.v
theories/P_Same.v
theories/P_Whole.v
theories/P_Told.v
theories/Props_Whole.v
theories/Props_Inputs.v
theories/Props_Results.v
theories/S_Refs.v
theories/P_Refs.v
theories/Props_Refs.v
theories/P_Git.v
theories/Props_Git.v
theories/M_Resolve.v
theories/S_Resolve.v
theories/P_Resolve.v
theories/Props_Resolve.v
theories/M_Docs.v
theories/S_Docs.v
theories/P_Docs.v
theories/Props_Docs.v
theories/Props_Source.v
theories/S_Typed.v
theories/P_Typed.v
theories/P_Comps.v
theories/S_Sends.v
theories/P_Sends.v
theories/P_Sent.v
theories/Props_Typed.v
theories/P_Run.v
theories/S_Queries.v
theories/P_Query.v
theories/Props_Query.v
theories/S_Asked.v
theories/P_Asked.v
theories/P_Script.v
theories/Props_Asked.v
theories/M_Json.v
theories/S_Json.v
theories/P_Json.v
theories/P_JsonDoc.v
theories/P_Built.v
theories/P_JsonRead.v
theories/P_JsonAny.v
theories/Props_Json.v
theories/S_Valid.v
theories/P_Valid.v
theories/Props_Valid.v
theories/M_Threads.v
theories/S_Threads.v
theories/P_Threads.v
theories/P_Linear.v
theories/P_Loader.v
theories/Props_Threads.v
theories/M_Position.v
theories/S_Position.v
theories/P_Position.v
theories/Props_Position.v
theories/S_Literal.v
theories/P_Literal.v
theories/P_Custom.v
theories/Props_Custom.v
theories/Props_CustomRun.v
theories/S_Details.v
theories/P_Details.v
theories/Props_Details.v
theories/S_Served.v
theories/Props_Served.v
theories/Props_CacheExact.v
theories/Props_Runes.v
theories/M_JsonOut.v
theories/S_JsonOut.v
theories/P_JsonOut.v
theories/Props_JsonOut.v
theories/M_CacheText.v
theories/S_CacheText.v
theories/P_CacheText.v
theories/Props_CacheText.v
theories/S_ValidRun.v
theories/P_ValidRun.v
theories/Props_ValidRun.v
