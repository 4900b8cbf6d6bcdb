.lia.cache
*.vo
*.vok
*.vos
*.glob
.*.aux
*.aux
.nia.cache
